(** C104, second part: file names, when the program returns, refuted claims, example. *)
From Coq Require Import Reals Lra String List Permutation Sorted.
From Verif Require Import Base DestripeModel DestripeProofs LinAlg RegressModel RegressProofs PropRegress PropRegress2 TsModel.
From Verif Require PropSlr PropSmooth SpatialModel SpatialSpec Arr HarmModel.
From Verif Require Import TrendMapModel PropTrendMap.
Import SpatialModel(sp, sdata, smask, serr, slon, slat, stime, smonth, sfill, mksp, sfrom_list). Import SpatialSpec(seen, single_grid).
Import Arr(rows, cols, get). Import HarmModel(TArr, TScalar).
Close Scope Z_scope.
Open Scope R_scope.

(** no two periods ask for the same label *)
Definition distinct (CYCLES : list R) : Prop := ForallOrdPairs (fun c c' => c <> c' /\ forall nd, In nd alias_days -> ~ (stands_for c (snd nd) /\ stands_for c' (snd nd))) CYCLES.

(** ** the fit in terms of functions of time *)
Definition column_is (t : list R) (column : list R) (f : R -> R) : Prop := forall i, (i < List.length t)%nat -> nth i column 0 = f (nth i t 0).
Definition mixture (fs : list (R -> R)) (b : nat -> R) (x : R) : R := rsum (List.length fs) (fun k => b k * nth k fs (fun _ => 0) x).
Lemma F2_nth {A B} (P : A -> B -> Prop) l l' da db k : Forall2 P l l' -> (k < List.length l)%nat -> P (nth k l da) (nth k l' db).
Proof. intros F. revert k. induction F as [|a b l l' F1 F IH]; intros k Hk; [cbn in Hk; lia|]. destruct k; cbn [nth]; [exact F1|apply IH; cbn in *; lia]. Qed.
Lemma F2_len {A B} (P : A -> B -> Prop) l l' : Forall2 P l l' -> List.length l = List.length l'.
Proof. induction 1; cbn; congruence. Qed.
Lemma mixture_signal r t ORDER cs Ts fs b i : Forall2 (column_is t) (design ORDER r t cs Ts) fs -> (i < List.length t)%nat -> signal ORDER r cs Ts t b i = mixture fs b (nth i t 0).
Proof.
  intros F Hi. rewrite <- (design_signal ORDER r t cs Ts b i Hi). unfold comb, mixture. rewrite <- (F2_len _ _ _ F), design_length. apply rsum_ext. intros k Hk. f_equal. unfold col, at_.
  apply (F2_nth _ _ _ [] (fun _ => 0) k F); [rewrite design_length; exact Hk|exact Hi].
Qed.
Lemma cell_mixture erf tppf months tm g ORDER CYCLES x fs b : Forall2 (column_is (map tm months)) (design ORDER (mean_time months tm) (map tm months) (filter stays CYCLES) (flat_map (terms_of (map tm months)) CYCLES)) fs ->
  regress_cell erf tppf (map tm months) ORDER CYCLES (map g months) = Ok x -> (forall m, In m months -> g m = mixture fs b (tm m)) -> forall k, (k < List.length fs)%nat -> at_ (c_beta x) k = b k.
Proof.
  intros F E H k Hk. unfold regress_cell in E. set (t := map tm months) in *. destruct (regress _ _ _ _ _ _ _ _ _ _ _ _ _) as [q|] eqn:Q in E; cbn [bind] in E; [|discriminate E]. injection E as <-. cbn [c_beta].
  assert (Er : epoch RelAll t (mean_time months tm)) by (unfold epoch, mean_time, mean_of, t; rewrite map_length; reflexivity).
  change (at_ (f_beta (r_fit q)) k) with (val (f_beta (r_fit q)) k). refine (proj1 (C53_exact _ _ _ _ _ _ _ _ _ _ _ _ _ q b (mean_time months tm) Q Logic.I Er _) k _).
  - intros i Hi. rewrite (mixture_signal _ _ _ _ _ fs b i F Hi). unfold val, t in *. rewrite map_length in Hi. rewrite !(nth_map _ months i 0%Z) by exact Hi. apply H. apply nth_In. exact Hi.
  - rewrite <- (design_length ORDER (mean_time months tm) t), (F2_len _ _ _ F). exact Hk.
Qed.
Lemma terms_length t CYCLES T : In T (flat_map (terms_of t) CYCLES) -> List.length T = List.length t.
Proof.
  intros H. apply in_flat_map in H. destruct H as (c & _ & H). unfold terms_of in H. apply in_flat_map in H. destruct H as (nd & _ & H). unfold aliasing_terms in H.
  repeat (destruct H as [<-|H]; [rewrite map_length; reflexivity|]). destruct H.
Qed.
Lemma cell_returns erf tppf months tm g ORDER CYCLES fs : (2 <= List.length months)%nat -> Forall2 (column_is (map tm months)) (design ORDER (mean_time months tm) (map tm months) (filter stays CYCLES) (flat_map (terms_of (map tm months)) CYCLES)) fs ->
  (exists x, regress_cell erf tppf (map tm months) ORDER CYCLES (map g months) = Ok x) <->
  (forall b, (forall m, In m months -> mixture fs b (tm m) = 0) -> forall k, (k < List.length fs)%nat -> b k = 0) /\ List.length months <> List.length fs.
Proof.
  intros L2 F. set (t := map tm months) in *. set (r := mean_time months tm) in *.
  assert (Er : epoch RelAll t r) by (unfold epoch, r, mean_time, mean_of, t; rewrite map_length; reflexivity). assert (LT : List.length t = List.length months) by apply map_length.
  destruct (C53_returns erf tppf t (map g months) ORDER (filter stays CYCLES) (flat_map (terms_of t) CYCLES) 0 RelAll 0 (95 / 100) true r ltac:(lia) ltac:(rewrite map_length; lia) (terms_length t CYCLES) Er) as (RT & _).
  assert (LF : List.length fs = nterms ORDER (filter stays CYCLES) (flat_map (terms_of t) CYCLES)) by (rewrite <- (F2_len _ _ _ F); apply design_length). rewrite <- LF, LT in RT.
  transitivity (exists q, run erf tppf t (map g months) ORDER (filter stays CYCLES) (flat_map (terms_of t) CYCLES) (Scalar 0) false RelAll 0 (95 / 100) true = Ok q).
  { unfold regress_cell, run. split; intros (x & E).
    - destruct (regress _ _ _ _ _ _ _ _ _ _ _ _ _) as [q|]; [exists q; reflexivity|discriminate E].
    - rewrite E. eexists. reflexivity. }
  rewrite RT. apply and_iff_compat_r. unfold identifiable. rewrite <- LF. split; intros H b Hb; apply H.
  - intros i Hi. rewrite (mixture_signal _ _ _ _ _ fs b i F Hi). unfold t. rewrite (nth_map tm months i 0%Z) by lia. apply Hb. apply nth_In. lia.
  - intros m Hm. apply (In_nth _ _ 0%Z) in Hm. destruct Hm as (i & Hi & <-). pose proof (mixture_signal r t ORDER (filter stays CYCLES) (flat_map (terms_of t) CYCLES) fs b i F ltac:(lia)) as MS. unfold t in MS at 3. rewrite (nth_map tm months i 0%Z 0 Hi) in MS. rewrite <- MS. apply Hb. lia.
Qed.
Lemma shows_columns r t D L : Forall2 (shows r t) D L -> Forall2 (column_is t) D (map (meaning r) L).
Proof. induction 1; cbn [map]; constructor; assumption. Qed.
Lemma combined_mixture r L c x : combined r L c x = mixture (map (meaning r) L) (fun k => c (nth k L EmptyString)) x.
Proof. unfold combined, mixture. rewrite (Sum_rsum _ L EmptyString), map_length. apply rsum_ext. intros k Hk. rewrite (nth_map (meaning r) L k EmptyString) by exact Hk. reflexivity. Qed.

(** ** labels and names are distinct *)
Fixpoint nodupb (l : list string) : bool := match l with [] => true | x :: r => negb (existsb (String.eqb x) r) && nodupb r end.
Lemma nodupb_ok l : nodupb l = true -> NoDup l.
Proof.
  induction l as [|x l IH]; [constructor|]. cbn [nodupb]. intros H. apply andb_prop in H. destruct H as (H1 & H2). constructor; [|apply IH; exact H2]. intros HI. apply Bool.negb_true_iff in H1.
  assert (existsb (String.eqb x) l = true); [|congruence]. apply existsb_exists. exists x. split; [exact HI|apply String.eqb_refl].
Qed.
Definition disjointb (l l' : list string) : bool := forallb (fun x => negb (existsb (String.eqb x) l')) l.
Lemma disjointb_ok l l' : disjointb l l' = true -> forall x, In x l -> In x l' -> False.
Proof. intros H x Hx Hx'. unfold disjointb in H. rewrite forallb_forall in H. specialize (H x Hx). apply Bool.negb_true_iff in H. assert (existsb (String.eqb x) l' = true); [|congruence]. apply existsb_exists. exists x. split; [exact Hx'|apply String.eqb_refl]. Qed.
Definition tide_names : list string := ["Q1"; "O1"; "P1"; "S1"; "K1"; "J1"; "M2"; "S2"; "K2"]%string.
Definition kinds : list (list (string * (string * string))) := ([[("SEMI", ("SS", "SC"))]; [("ANN", ("AS", "AC"))]]%string ++ map tide_pairs tide_names)%list.
(** the kind of a period: 0 semi-annual, 1 annual, 2.. tides *)
Lemma kind_of c : (c = 1 / 2 \/ c = 1) \/ (exists nd, In nd alias_days /\ stands_for c (snd nd)) ->
  exists k, (k < List.length kinds)%nat /\ pairs_of c = nth k kinds [] /\ (k = 0%nat -> c = 1 / 2) /\ (k = 1%nat -> c = 1) /\ (2 <= k -> exists nd, In nd alias_days /\ stands_for c (snd nd) /\ nth (k - 2) alias_days nd = nd)%nat.
Proof.
  intros [E|(nd & H1 & H2)].
  - unfold pairs_of, is_half, is_one. rewrite (tides_none c E). destruct E as [-> | ->].
    + exists 0%nat. destruct (Req_EM_T (1 / 2) (1 / 2)); [|contradiction]. repeat split; try lia; try reflexivity. cbn. lia.
    + exists 1%nat. destruct (Req_EM_T 1 (1 / 2)); [exfalso; lra|]. destruct (Req_EM_T 1 1); [|contradiction]. repeat split; try lia; try reflexivity. cbn. lia.
  - assert (K : exists n, (n < 9)%nat /\ nth n alias_days nd = nd /\ nth n tide_names EmptyString = fst nd).
    { clear H2. repeat (destruct H1 as [<-|H1]; [first [exists 0%nat; split; [lia|split; reflexivity]|exists 1%nat; split; [lia|split; reflexivity]|exists 2%nat; split; [lia|split; reflexivity]|exists 3%nat; split; [lia|split; reflexivity]|exists 4%nat; split; [lia|split; reflexivity]|exists 5%nat; split; [lia|split; reflexivity]|exists 6%nat; split; [lia|split; reflexivity]|exists 7%nat; split; [lia|split; reflexivity]|exists 8%nat; split; [lia|split; reflexivity]]|]). destruct H1. }
    destruct K as (n & Hn & N1 & N2). exists (2 + n)%nat. split; [cbn; lia|]. split; [|split; [lia|split; [lia|intros _; exists nd; replace (2 + n - 2)%nat with n by lia; auto]]].
    unfold pairs_of. destruct (alias_not c nd H1 H2) as (-> & ->). rewrite (tides_one c nd H1 H2). cbn [flat_map app]. rewrite app_nil_r. unfold kinds. cbn [app Nat.add nth]. rewrite (nth_map tide_pairs tide_names n EmptyString) by (cbn; lia). rewrite N2. reflexivity.
Qed.
Lemma kinds_of CYCLES : in_order CYCLES -> distinct CYCLES -> exists ks, NoDup ks /\ (forall k, In k ks -> (k < List.length kinds)%nat) /\ flat_map pairs_of CYCLES = flat_map (fun k => nth k kinds []) ks.
Proof.
  intros (reg & al & EQ & HR & HA) HD. assert (ALL : forall c, In c CYCLES -> (c = 1 / 2 \/ c = 1) \/ (exists nd, In nd alias_days /\ stands_for c (snd nd))).
  { intros c Hc. rewrite EQ in Hc. apply in_app_iff in Hc. destruct Hc as [Hc|Hc]; [left; apply HR; exact Hc|right; apply HA; exact Hc]. }
  clear EQ HR HA.
  enough (G : exists ks, NoDup ks /\ Forall2 (fun c k => (k < List.length kinds)%nat /\ pairs_of c = nth k kinds [] /\ (k = 0%nat -> c = 1 / 2) /\ (k = 1%nat -> c = 1) /\ (2 <= k -> exists nd, In nd alias_days /\ stands_for c (snd nd) /\ nth (k - 2) alias_days nd = nd)%nat) CYCLES ks).
  { destruct G as (ks & ND & F). exists ks. split; [exact ND|]. clear ND ALL HD. induction F as [|c k cs ks (K1 & K2 & _) F IH]; [split; [intros k []|reflexivity]|]. destruct IH as (I1 & I2). split; [intros k' [<-|H]; auto|]. cbn [flat_map]. rewrite K2, I2. reflexivity. }
  induction HD as [|c cs FA HD IH]; [exists []; split; constructor|]. destruct IH as (ks & ND & F); [intros c' Hc'; apply ALL; right; exact Hc'|]. destruct (kind_of c (ALL c (or_introl eq_refl))) as (k & K). exists (k :: ks). split; [|constructor; assumption].
  constructor; [|exact ND]. intros HI. destruct K as (KB & _ & K0 & K1 & K2). assert (EX : exists c', In c' cs /\ (k = 0%nat -> c' = 1 / 2) /\ (k = 1%nat -> c' = 1) /\ (2 <= k -> exists nd, In nd alias_days /\ stands_for c' (snd nd) /\ nth (k - 2) alias_days nd = nd)%nat).
  { clear - F HI. induction F as [|c' k' cs ks (_ & _ & H) F IH]; [destruct HI|]. destruct HI as [->|HI]; [exists c'; split; [left; reflexivity|exact H]|]. destruct (IH HI) as (c'' & H1 & H2). exists c''. split; [right; exact H1|exact H2]. }
  destruct EX as (c' & Hc' & L0 & L1 & L2). rewrite Forall_forall in FA. destruct (FA c' Hc') as (NE & NA). destruct k as [|[|k]]; [apply NE; rewrite K0, L0; reflexivity|apply NE; rewrite K1, L1; reflexivity|].
  destruct (K2 ltac:(lia)) as (nd & A1 & A2 & A3). destruct (L2 ltac:(lia)) as (nd' & B1 & B2 & B3). assert (nd = nd').
  { change (List.length kinds) with 11%nat in KB. rewrite <- A3, <- B3. apply nth_indep. change (List.length alias_days) with 9%nat. lia. }
  subst nd'. apply (NA nd A1). split; assumption.
Qed.

Lemma nodup_groups {A B} (f : A -> list B) (ks : list A) : NoDup ks -> (forall k : A, In k ks -> NoDup (f k)) -> (forall (k k' : A) (x : B), In k ks -> In k' ks -> In x (f k) -> In x (f k') -> k = k') -> NoDup (flat_map f ks).
Proof.
  induction 1 as [|k ks NI ND IH]; intros H1 H2; [constructor|]. cbn [flat_map]. assert (IH' : NoDup (flat_map f ks)) by (apply IH; [intros k' Hk; apply H1; right; exact Hk|intros a b x Ha Hb; apply H2; right; assumption]).
  assert (D : forall x, In x (f k) -> ~ In x (flat_map f ks)). { intros x Hx Hf. apply in_flat_map in Hf. destruct Hf as (k' & Hk' & Hx'). apply NI. rewrite (H2 k k' x (or_introl eq_refl) (or_intror Hk') Hx Hx'). exact Hk'. }
  specialize (H1 k (or_introl eq_refl)). clear - H1 IH' D. induction H1 as [|x l NX ND IH]; [exact IH'|]. cbn [app]. constructor; [|apply IH; intros y Hy; apply D; right; exact Hy]. intros H. apply in_app_iff in H. destruct H; [contradiction|]. apply (D x (or_introl eq_refl) H).
Qed.
(** for groups given by position: a finite check *)
Definition groups_ok (G : list (list string)) : bool := forallb nodupb G && forallb (fun a => forallb (fun b => (a =? b)%nat || disjointb (nth a G []) (nth b G [])) (seq 0 (List.length G))) (seq 0 (List.length G)).
Lemma groups_nodup G ks : groups_ok G = true -> NoDup ks -> (forall k, In k ks -> (k < List.length G)%nat) -> NoDup (flat_map (fun k => nth k G []) ks).
Proof.
  intros H ND B. unfold groups_ok in H. apply andb_prop in H. destruct H as (H1 & H2). rewrite forallb_forall in H1, H2. apply nodup_groups; [exact ND| |].
  - intros k Hk. apply nodupb_ok. apply H1. apply nth_In. apply B. exact Hk.
  - intros a b x Ha Hb Xa Xb. specialize (H2 a). rewrite forallb_forall in H2. specialize (H2 ltac:(apply in_seq; specialize (B a Ha); lia) b ltac:(apply in_seq; specialize (B b Hb); lia)). apply Bool.orb_true_iff in H2. destruct H2 as [H2|H2]; [apply Nat.eqb_eq; exact H2|]. destruct (disjointb_ok _ _ H2 x Xa Xb).
Qed.
Definition label_groups := map both kinds.
Definition amp_groups (suffix : string) := map (fun g => flat_map (fun p => [fst p ++ suffix; fst p ++ "_PHASE"]%string) g) kinds.
Lemma labels_of_kinds CYCLES ks : flat_map pairs_of CYCLES = flat_map (fun k => nth k kinds []) ks -> flat_map labels_of CYCLES = flat_map (fun k => nth k label_groups []) ks.
Proof.
  intros H. rewrite (proj2 (amps_pairs CYCLES)), H. unfold both. rewrite !flat_map_concat_map, <- !flat_map_concat_map. clear H. induction ks as [|k ks IH]; [reflexivity|]. cbn [flat_map]. rewrite flat_map_app, IH. f_equal.
  unfold label_groups. change (@nil string) with (both []). rewrite map_nth. reflexivity.
Qed.
Lemma nodup_app {A} (l l' : list A) : NoDup l -> NoDup l' -> (forall x, In x l -> In x l' -> False) -> NoDup (l ++ l').
Proof. induction 1 as [|x l NX ND IH]; intros N2 D; [exact N2|]. cbn [app]. constructor; [|apply IH; [exact N2|intros y Hy; apply D; right; exact Hy]]. intros H. apply in_app_iff in H. destruct H; [contradiction|]. apply (D x); [left; reflexivity|assumption]. Qed.
Lemma in_groups (G : list (list string)) (ks : list nat) (x : string) : (forall k, In k ks -> (k < List.length G)%nat) -> In x (flat_map (fun k => nth k G []) ks) -> In x (List.concat G).
Proof. intros B H. apply in_flat_map in H. destruct H as (k & Hk & Hx). apply in_concat. exists (nth k G []). split; [apply nth_In; apply B; exact Hk|exact Hx]. Qed.
Lemma labels_nodup ORDER CYCLES : (ORDER <= 2)%nat -> in_order CYCLES -> distinct CYCLES -> NoDup (all_labels ORDER CYCLES).
Proof.
  intros HO HA HD. destruct (kinds_of CYCLES HA HD) as (ks & ND & B & E). unfold all_labels. rewrite (labels_of_kinds _ _ E). assert (B' : forall k, In k ks -> (k < List.length label_groups)%nat) by (intros k Hk; unfold label_groups; rewrite map_length; auto).
  apply nodup_app; [|apply groups_nodup; [vm_compute; reflexivity|exact ND|exact B']|].
  - apply nodupb_ok. destruct ORDER as [|[|[|n]]]; [reflexivity..|lia].
  - intros x H1 H2. apply (in_groups _ _ _ B') in H2. assert (H3 : In x (poly_labels 2)). { unfold poly_labels in *. apply in_map_iff in H1. destruct H1 as (o & <- & Ho). apply in_map_iff. exists o. split; [reflexivity|]. apply in_seq in Ho. apply in_seq. lia. }
    refine (disjointb_ok _ _ _ x H3 H2). vm_compute. reflexivity.
Qed.
Definition stat_names (l : string) : list string := ["SSE_" ++ l; "AIC_" ++ l; "BIC_" ++ l; "R2Adj_" ++ l]%string.
(** every file of a run has a name of its own *)
Theorem C104_names : forall erf tppf maps order START END MISSING ORDER CYCLES months nlat nlon fill tm v out,
  months_are START END MISSING months -> monthly maps order months nlat nlon fill tm v -> in_order CYCLES -> distinct CYCLES ->
  regress_grace_maps erf tppf maps order START END MISSING ORDER CYCLES = Ok out ->
  NoDup (map o_name out) /\ (forall f, In f out -> o_first f = START /\ o_last f = END) /\
  forall n, In n (map o_name out) <-> asked ORDER CYCLES n \/ (exists flag sl cl, wanted CYCLES (flag, (sl, cl)) /\ (n = flag ++ "_AMPL" \/ n = flag ++ "_PHASE")%string) \/ In n (stat_names (nth ORDER ["x0"; "x1"; "x2"] EmptyString)%string).
Proof.
  intros erf tppf maps order START END MISSING ORDER CYCLES months nlat nlon fill tm v out HM HI HA HD E. destruct (regress_run _ _ _ _ _ _ _ _ _ _ _ _ _ _ _ _ HM HI E) as (HO & cs & -> & _).
  assert (N1 : map o_name (coef_maps (all_labels ORDER CYCLES) (fun _ => START) (fun _ => END) cs) = all_labels ORDER CYCLES).
  { unfold coef_maps. rewrite map_map. cbn [o_name]. clear. apply nth_ext with (d := nth 0 (all_labels ORDER CYCLES) EmptyString) (d' := EmptyString); [rewrite map_length, seq_length; reflexivity|]. intros k Hk. rewrite map_length, seq_length in Hk.
    rewrite (nth_map _ _ k 0%nat) by (rewrite seq_length; exact Hk). rewrite seq_nth by exact Hk. reflexivity. }
  assert (N2 : map o_name (amp_maps (1 + ORDER) "_AMPL" START END (flat_map amps_of CYCLES) cs) = flat_map (fun p => [fst p ++ "_AMPL"; fst p ++ "_PHASE"]%string) (flat_map pairs_of CYCLES)).
  { unfold amp_maps. rewrite (proj1 (amps_pairs CYCLES)), map_length. generalize (flat_map pairs_of CYCLES). clear. intros ps.
    transitivity (flat_map (fun n => [nth n (map fst ps) EmptyString ++ "_AMPL"; nth n (map fst ps) EmptyString ++ "_PHASE"]%string) (seq 0 (List.length ps))).
    - generalize (seq 0 (List.length ps)). induction l as [|k l IH]; [reflexivity|]. cbn [flat_map]. rewrite map_app, IH. reflexivity.
    - induction ps as [|p ps IH]; [reflexivity|]. cbn [List.length]. rewrite <- cons_seq, <- seq_shift. cbn [flat_map map nth app]. f_equal. f_equal. rewrite <- IH. clear. generalize (seq 0 (List.length ps)). induction l as [|k l IH]; [reflexivity|]. cbn [map flat_map app]. rewrite IH. reflexivity. }
  assert (N3 : map o_name (stat_maps (nth ORDER (all_labels ORDER CYCLES) EmptyString) START END cs) = stat_names (nth ORDER ["x0"; "x1"; "x2"] EmptyString)%string).
  { unfold stat_maps. rewrite map_map. cbn [map o_name fst snd]. unfold all_labels. destruct ORDER as [|[|[|k]]]; [reflexivity..|lia]. }
  rewrite !map_app, N1, N2, N3. split; [|split].
  - destruct (kinds_of CYCLES HA HD) as (ks & ND & B & EK).
    assert (EA : flat_map (fun p => [fst p ++ "_AMPL"; fst p ++ "_PHASE"]%string) (flat_map pairs_of CYCLES) = flat_map (fun k => nth k (amp_groups "_AMPL") []) ks).
    { rewrite EK. clear. induction ks as [|k ks IH]; [reflexivity|]. cbn [flat_map]. rewrite flat_map_app, IH. f_equal. unfold amp_groups. set (f := fun g : list (string * (string * string)) => flat_map (fun p => [fst p ++ "_AMPL"; fst p ++ "_PHASE"]%string) g). change (@nil string) with (f []). rewrite map_nth. reflexivity. }
    assert (B' : forall k, In k ks -> (k < List.length (amp_groups "_AMPL"))%nat) by (intros k Hk; unfold amp_groups; rewrite map_length; auto).
    assert (IL : forall x, In x (all_labels ORDER CYCLES) -> In x (poly_labels 2 ++ List.concat label_groups)).
    { intros x Hx. unfold all_labels in Hx. apply in_app_iff in Hx. apply in_app_iff. destruct Hx as [Hx|Hx].
      - left. unfold poly_labels in *. apply in_map_iff in Hx. destruct Hx as (o & <- & Ho). apply in_map_iff. exists o. split; [reflexivity|]. apply in_seq in Ho. apply in_seq. lia.
      - right. rewrite (labels_of_kinds _ _ EK) in Hx. apply (in_groups _ ks); [intros k Hk; unfold label_groups; rewrite map_length; auto|exact Hx]. }
    assert (IS : forall x, In x (stat_names (nth ORDER ["x0"; "x1"; "x2"] EmptyString)%string) -> In x (stat_names "x0" ++ stat_names "x1" ++ stat_names "x2")).
    { intros x Hx. rewrite !in_app_iff. destruct ORDER as [|[|[|k]]]; [cbn [nth] in Hx; tauto..|lia]. }
    apply nodup_app; [apply labels_nodup; assumption| |]; [rewrite EA; apply nodup_app; [apply groups_nodup; [vm_compute; reflexivity|exact ND|exact B']|apply nodupb_ok; destruct ORDER as [|[|[|k]]]; [reflexivity..|lia]|]|].
    + intros x H1 H2. apply (in_groups _ _ _ B') in H1. apply IS in H2. refine (disjointb_ok _ _ _ x H1 H2). vm_compute. reflexivity.
    + intros x H1 H2. apply IL in H1. apply in_app_iff in H2. destruct H2 as [H2|H2].
      * rewrite EA in H2. apply (in_groups _ _ _ B') in H2. refine (disjointb_ok _ _ _ x H1 H2). vm_compute. reflexivity.
      * apply IS in H2. refine (disjointb_ok _ _ _ x H1 H2). vm_compute. reflexivity.
  - intros f Hf. rewrite !in_app_iff in Hf. destruct Hf as [Hf|[Hf|Hf]].
    + unfold coef_maps in Hf. apply in_map_iff in Hf. destruct Hf as (k & <- & _). split; reflexivity.
    + unfold amp_maps in Hf. apply in_flat_map in Hf. destruct Hf as (k & _ & [<-|[<-|[]]]); split; reflexivity.
    + unfold stat_maps in Hf. apply in_map_iff in Hf. destruct Hf as (k & <- & _). split; reflexivity.
  - intros n. rewrite !in_app_iff, (labels_asked ORDER CYCLES n HO). apply or_iff_compat_l. apply or_iff_compat_r. rewrite in_flat_map. split.
    + intros ((flag & sl & cl) & Hp & Hn). exists flag, sl, cl. split; [apply wanted_in; exact Hp|]. cbn [fst In] in Hn. intuition.
    + intros (flag & sl & cl & Hp & Hn). exists (flag, (sl, cl)). split; [apply wanted_in; exact Hp|]. cbn [fst In]. intuition.
Qed.
Print Assumptions C104_names.
(** ** when the program returns *)
Lemma regress_total erf tppf maps order START END MISSING ORDER CYCLES months nlat nlon fill tm v :
  months_are START END MISSING months -> monthly maps order months nlat nlon fill tm v ->
  (ORDER <= 2)%nat -> (forall i j, (i < nlat)%nat -> (j < nlon)%nat -> exists x, regress_cell erf tppf (map tm months) ORDER CYCLES (map (fun m => stored fill (v m i j)) months) = Ok x) ->
  exists out, regress_grace_maps erf tppf maps order START END MISSING ORDER CYCLES = Ok out.
Proof.
  intros HM HI HO H. unfold regress_grace_maps. rewrite (months_unique _ _ _ _ HM). destruct (read_ok maps order months nlat nlon fill tm v (proj1 HM) HI) as (g & EG & RG & CG & TG & _ & SG). rewrite EG. cbn [bind]. destruct (Nat.ltb_spec 2 ORDER); [lia|].
  destruct (cells_total g (regress_cell erf tppf (times g) ORDER CYCLES)) as (cs & ->); [|cbn [bind]; eexists; reflexivity]. intros i j Hi Hj. rewrite RG in Hi. rewrite CG in Hj. destruct (H i j Hi Hj) as (x & E). eexists. exists x. split; [apply SG; assumption|]. rewrite TG. exact E.
Qed.
Definition told_apart (r : R) (labels : list string) (months : list Z) (tm : Z -> R) : Prop := forall c, (forall m, In m months -> combined r labels c (tm m) = 0) -> forall l, In l labels -> c l = 0.
Theorem C104_returns : forall erf tppf maps order START END MISSING ORDER CYCLES months nlat nlon fill tm v,
  months_are START END MISSING months -> monthly maps order months nlat nlon fill tm v -> in_order CYCLES -> distinct CYCLES -> (0 < nlat)%nat -> (0 < nlon)%nat -> (2 <= List.length months)%nat ->
  (exists out, regress_grace_maps erf tppf maps order START END MISSING ORDER CYCLES = Ok out) <->
  (ORDER <= 2)%nat /\ exists labels, NoDup labels /\ (forall l, In l labels <-> asked ORDER CYCLES l) /\ (List.length labels < List.length months)%nat /\ told_apart (mean_time months tm) labels months tm.
Proof.
  intros erf tppf maps order START END MISSING ORDER CYCLES months nlat nlon fill tm v HM HI HA HD Hn Hm L2.
  assert (IFF : (ORDER <= 2)%nat -> forall g, (exists x, regress_cell erf tppf (map tm months) ORDER CYCLES (map g months) = Ok x) <-> told_apart (mean_time months tm) (all_labels ORDER CYCLES) months tm /\ List.length months <> List.length (all_labels ORDER CYCLES)).
  { intros HO g. rewrite (cell_returns erf tppf months tm g ORDER CYCLES _ L2 (shows_columns _ _ _ _ (design_shows (mean_time months tm) (map tm months) ORDER CYCLES HO HA))). rewrite map_length. apply and_iff_compat_r. set (L := all_labels ORDER CYCLES). pose proof (labels_nodup ORDER CYCLES HO HA HD) as ND. fold L in ND. split.
    - intros H c Hc l Hl. destruct (posn_in l L Hl) as (P1 & P2). rewrite <- P2. apply (H (fun k => c (nth k L EmptyString))); [|exact P1]. intros m Hm'. rewrite <- combined_mixture. apply Hc. exact Hm'.
    - intros H b Hb k Hk. assert (B : b (posn (nth k L EmptyString) L) = 0); [|rewrite posn_nth in B by assumption; exact B]. apply (H (fun l => b (posn l L))); [|apply nth_In; exact Hk]. intros m Hm'. rewrite combined_mixture. rewrite <- (Hb m Hm'). unfold mixture. apply rsum_ext. intros j Hj. rewrite map_length in Hj. rewrite posn_nth by assumption. reflexivity. }
  split.
  - intros (out & E). pose proof (regress_run _ _ _ _ _ _ _ _ _ _ _ _ _ _ _ _ HM HI E) as (HO & cs & _ & CF). split; [exact HO|]. exists (all_labels ORDER CYCLES). destruct (cell_regress _ _ _ _ _ _ _ _ HO HA (CF 0%nat 0%nat Hn Hm)) as (ND & LT & _).
    split; [exact ND|]. split; [intros l; apply labels_asked; exact HO|]. split; [exact LT|]. apply (proj1 (IFF HO (fun m => stored fill (v m 0%nat 0%nat)))). eexists. apply (CF 0%nat 0%nat Hn Hm).
  - intros (HO & L & ND & HL & LL & TA). apply (regress_total _ _ _ _ _ _ _ _ _ _ _ _ _ _ _ HM HI HO). intros i j Hi Hj. apply (IFF HO).
    assert (P : Permutation L (all_labels ORDER CYCLES)) by (apply NoDup_Permutation; [exact ND|apply labels_nodup; assumption|]; intros x; rewrite HL, (labels_asked ORDER CYCLES x HO); reflexivity).
    split; [|rewrite <- (Permutation_length P); lia]. intros c Hc l Hl. apply (TA c); [|apply (Permutation_in _ (Permutation_sym P)); exact Hl]. intros m Hm'. rewrite <- (Hc m Hm'). unfold combined, Sum. clear - P. induction P; cbn [map fold_right]; [reflexivity|rewrite IHP; reflexivity|ring|congruence].
Qed.
Print Assumptions C104_returns.
(** polynomials of degree 3 or more: no run of the program ends with output *)
Theorem C104_order3_refuted : forall erf tppf maps order START END MISSING ORDER CYCLES, (2 < ORDER)%nat -> forall out, regress_grace_maps erf tppf maps order START END MISSING ORDER CYCLES <> Ok out.
Proof. intros erf tppf maps order START END MISSING ORDER CYCLES H out E. unfold regress_grace_maps in E. destruct (read_maps _ _ _); cbn [bind] in E; [|discriminate E]. destruct (Nat.ltb_spec 2 ORDER); [discriminate E|lia]. Qed.
(** ** refuted: a cell without any value (masked in every month, say outside the region of interest) is shown with a value and a mask that says it is valid *)
Theorem C104_mask_refuted : forall erf tppf maps order START END MISSING ORDER CYCLES months nlat nlon f tm v out i j,
  months_are START END MISSING months -> monthly maps order months nlat nlon (Some (Some f)) tm v -> in_order CYCLES -> (i < nlat)%nat -> (j < nlon)%nat ->
  regress_grace_maps erf tppf maps order START END MISSING ORDER CYCLES = Ok out -> (forall m, In m months -> v m i j = None) ->
  file out "x0" START END i j f /\ forall l, asked ORDER CYCLES l -> l <> "x0"%string -> file out l START END i j 0.
Proof.
  intros erf tppf maps order START END MISSING ORDER CYCLES months nlat nlon f tm v out i j HM HI HA Hi Hj E HV.
  destruct (C104_fit _ _ _ _ _ _ _ _ _ _ _ _ _ _ _ _ HM HI HA ltac:(lia) ltac:(lia) E) as (L & ND & HL & _ & H). destruct (H i j Hi Hj) as (c & F & MIN & UNI). cbv zeta in MIN, UNI. set (c0 := fun l : string => if String.eqb l "x0" then f else 0).
  assert (I0 : In "x0"%string L) by (apply HL; left; replace (ORDER + 1)%nat with (S ORDER) by lia; left; reflexivity).
  assert (CB : forall x, combined (mean_time months tm) L c0 x = f).
  { intros x. unfold combined. assert (M0 : meaning (mean_time months tm) "x0" x = 1) by reflexivity. clear - ND I0 M0. induction ND as [|a l NI ND IH]; [destruct I0|]. cbn [map Sum fold_right]. unfold Sum in IH.
    destruct (String.eqb_spec a "x0") as [->|N].
    - assert (Z : fold_right Rplus 0 (map (fun l0 => c0 l0 * meaning (mean_time months tm) l0 x) l) = 0).
      { clear IH ND I0. induction l as [|b l IH]; [reflexivity|]. cbn [map fold_right]. rewrite IH by (intros X; apply NI; right; exact X). unfold c0. destruct (String.eqb_spec b "x0") as [->|]; [exfalso; apply NI; left; reflexivity|]. ring. }
      rewrite Z, M0. unfold c0. rewrite String.eqb_refl. ring.
    - destruct I0 as [E|I0]; [contradiction|]. rewrite (IH I0). unfold c0. destruct (String.eqb_spec a "x0") as [|_]; [contradiction|]. ring. }
  assert (Z : squares (mean_time months tm) L months tm (fun m => stored (Some (Some f)) (v m i j)) c0 = 0).
  { unfold squares. enough (G : forall l0, (forall m, In m l0 -> In m months) -> Sum (map (fun m => (stored (Some (Some f)) (v m i j) - combined (mean_time months tm) L c0 (tm m)) ^ 2) l0) = 0) by (apply G; auto).
    induction l0 as [|a l0 IH]; intros HI0; [reflexivity|]. cbn [map Sum fold_right]. unfold Sum in IH. rewrite IH by (intros m Hm; apply HI0; right; exact Hm). rewrite (HV a) by (apply HI0; left; reflexivity). cbn [stored]. rewrite CB. ring. }
  assert (NN : 0 <= squares (mean_time months tm) L months tm (fun m => stored (Some (Some f)) (v m i j)) c).
  { unfold squares. generalize months at 2. induction months0 as [|a l0 IH]; cbn [map Sum fold_right]; [lra|]. unfold Sum in IH. match goal with |- 0 <= ?a ^ 2 + _ => pose proof (pow2_ge_0 a) end. lra. }
  assert (C0 : forall l, In l L -> c l = c0 l) by (intros l Hl; symmetry; apply UNI; [specialize (MIN c0); lra|exact Hl]).
  split; [specialize (F _ I0); rewrite (C0 _ I0) in F; exact F|]. intros l Hl N. apply HL in Hl. specialize (F _ Hl). rewrite (C0 _ Hl) in F. unfold c0 in F. destruct (String.eqb_spec l "x0"); [contradiction|exact F].
Qed.
Print Assumptions C104_mask_refuted.
(** ** refuted: an aliasing period before the annual one in the list of periods.  Each map shows the coefficient of another function *)
Theorem C104_order_refuted : forall erf tppf maps order START END MISSING ORDER a nd months nlat nlon fill tm v out i j c labels,
  months_are START END MISSING months -> monthly maps order months nlat nlon fill tm v -> In nd alias_days -> stands_for a (snd nd) -> (i < nlat)%nat -> (j < nlon)%nat ->
  regress_grace_maps erf tppf maps order START END MISSING ORDER [a; 1] = Ok out ->
  NoDup labels -> (forall l, In l labels <-> asked ORDER [a; 1] l) -> (forall m, In m months -> v m i j = Some (combined (mean_time months tm) labels c (tm m))) ->
  let n := fst nd in
  file out (n ++ "SGRC") START END i j (c "AS"%string) /\ file out (n ++ "CGRC") START END i j (c "AC"%string) /\ file out (n ++ "SGFO") START END i j (c (n ++ "SGRC")%string) /\
  file out (n ++ "CGFO") START END i j (c (n ++ "CGRC")%string) /\ file out "AS" START END i j (c (n ++ "SGFO")%string) /\ file out "AC" START END i j (c (n ++ "CGFO")%string).
Proof.
  intros erf tppf maps order START END MISSING ORDER a nd months nlat nlon fill tm v out i j c L HM HI Hn Hs Hi Hj E ND HL HV. cbv zeta.
  destruct (regress_run _ _ _ _ _ _ _ _ _ _ _ _ _ _ _ _ HM HI E) as (HO & cs & -> & CF). specialize (CF i j Hi Hj). set (x := at_cell cs i j) in *.
  assert (S1 : stays 1 = true) by (unfold stays; rewrite (tides_none 1); auto). assert (Sa : stays a = false) by (unfold stays; rewrite (tides_one a nd Hn Hs); reflexivity).
  assert (T1 : forall t, terms_of t 1 = []) by (intros t; unfold terms_of; rewrite (tides_none 1); auto).
  assert (RC : forall t d, regress_cell erf tppf t ORDER [a; 1] d = regress_cell erf tppf t ORDER [1; a] d).
  { intros t d. unfold regress_cell. cbn [filter flat_map]. rewrite S1, Sa, T1. cbn [app]. reflexivity. }
  rewrite RC in CF. assert (HA : in_order [1; a]). { exists [1], [a]. split; [reflexivity|]. split; [intros y [<-|[]]; right; reflexivity|]. intros y [<-|[]]. exists nd. auto. }
  assert (L1 : labels_of 1 = ["AS"; "AC"]%string). { unfold labels_of, is_half, is_one. rewrite (tides_none 1) by auto. destruct (Req_EM_T 1 (1 / 2)); [exfalso; lra|]. destruct (Req_EM_T 1 1); [reflexivity|contradiction]. }
  assert (La : labels_of a = [fst nd ++ "SGRC"; fst nd ++ "CGRC"; fst nd ++ "SGFO"; fst nd ++ "CGFO"]%string). { unfold labels_of. destruct (alias_not a nd Hn Hs) as (-> & ->). rewrite (tides_one a nd Hn Hs). reflexivity. }
  assert (DI : distinct [1; a]). { unfold distinct. constructor; [constructor; [|constructor]|constructor; constructor]. split; [intros <-; apply (not_alias 1 (or_intror eq_refl) nd Hn Hs)|]. intros nd' H' (S' & _). apply (not_alias 1 (or_intror eq_refl) nd' H' S'). }
  assert (P : Permutation L (all_labels ORDER [1; a])).
  { apply NoDup_Permutation; [exact ND|apply labels_nodup; assumption|]. intros l. rewrite HL, (labels_asked ORDER [1; a] l HO). unfold asked. cbn [In]. split; intros [H|[H|[H|(c' & nd' & H & R1)]]]; auto; try (right; left; tauto); try (right; right; left; tauto); right; right; right; exists c', nd'; tauto. }
  set (L1a := all_labels ORDER [1; a]) in *. assert (B : forall k, (k < List.length L1a)%nat -> at_ (c_beta x) k = c (nth k L1a EmptyString)).
  { intros k Hk. refine (cell_mixture _ _ _ _ _ _ _ _ _ (fun k => c (nth k L1a EmptyString)) (shows_columns _ _ _ _ (design_shows (mean_time months tm) (map tm months) ORDER [1; a] HO HA)) CF _ k _); [|rewrite map_length; exact Hk].
    intros m Hm. rewrite HV by exact Hm. cbn [stored]. rewrite <- combined_mixture. unfold combined, Sum. clear - P. induction P; cbn [map fold_right]; [reflexivity|rewrite IHP; reflexivity|ring|congruence]. }
  assert (LP : List.length (poly_labels ORDER) = (1 + ORDER)%nat) by (unfold poly_labels; rewrite map_length, seq_length; lia).
  assert (G : forall q l l', (q < 6)%nat -> nth q [fst nd ++ "SGRC"; fst nd ++ "CGRC"; fst nd ++ "SGFO"; fst nd ++ "CGFO"; "AS"; "AC"]%string EmptyString = l -> nth q ["AS"; "AC"; fst nd ++ "SGRC"; fst nd ++ "CGRC"; fst nd ++ "SGFO"; fst nd ++ "CGFO"]%string EmptyString = l' ->
    file (coef_maps (all_labels ORDER [a; 1]) (fun _ => START) (fun _ => END) cs ++ amp_maps (1 + ORDER) "_AMPL" START END (flat_map amps_of [a; 1]) cs ++ stat_maps (nth ORDER (all_labels ORDER [a; 1]) EmptyString) START END cs) l START END i j (c l')).
  { intros q l l' Hq E1 E2. assert (K : forall Y, List.length Y = 6%nat -> (1 + ORDER + q < List.length (poly_labels ORDER ++ Y))%nat /\ nth (1 + ORDER + q) (poly_labels ORDER ++ Y) EmptyString = nth q Y EmptyString).
    { intros Y LY. rewrite app_length, app_nth2 by lia. rewrite LP, LY. split; [lia|]. f_equal. lia. }
    assert (A1 : all_labels ORDER [a; 1] = (poly_labels ORDER ++ [fst nd ++ "SGRC"; fst nd ++ "CGRC"; fst nd ++ "SGFO"; fst nd ++ "CGFO"; "AS"; "AC"]%string)%list) by (unfold all_labels; cbn [flat_map]; rewrite L1, La; reflexivity).
    assert (A2 : L1a = (poly_labels ORDER ++ ["AS"; "AC"; fst nd ++ "SGRC"; fst nd ++ "CGRC"; fst nd ++ "SGFO"; fst nd ++ "CGFO"]%string)%list) by (unfold L1a, all_labels; cbn [flat_map]; rewrite L1, La; reflexivity).
    destruct (K [fst nd ++ "SGRC"; fst nd ++ "CGRC"; fst nd ++ "SGFO"; fst nd ++ "CGFO"; "AS"; "AC"]%string eq_refl) as (K1 & K2). rewrite <- A1 in K1, K2. rewrite E1 in K2.
    destruct (K ["AS"; "AC"; fst nd ++ "SGRC"; fst nd ++ "CGRC"; fst nd ++ "SGFO"; fst nd ++ "CGFO"]%string eq_refl) as (K3 & K4). rewrite <- A2 in K3, K4. rewrite E2 in K4.
    eexists. split; [apply in_or_app; left; apply (coef_in _ (fun _ => START) (fun _ => END) cs _ K1)|]. cbn [o_name o_first o_last o_data o_mask]. fold x. rewrite K2, (B _ K3), K4. repeat split; reflexivity. }
  repeat split; [apply (G 0%nat)|apply (G 1%nat)|apply (G 2%nat)|apply (G 3%nat)|apply (G 4%nat)|apply (G 5%nat)]; try lia; reflexivity.
Qed.
Print Assumptions C104_order_refuted.
(** ** refuted: a period that has no label, before the annual one: the annual maps show its coefficients *)
Theorem C104_unknown_refuted : forall erf tppf maps order START END MISSING ORDER p months nlat nlon fill tm v out i j b s c s1 c1,
  months_are START END MISSING months -> monthly maps order months nlat nlon fill tm v -> p <> 1 / 2 -> p <> 1 -> (forall nd, In nd alias_days -> ~ stands_for p (snd nd)) -> (i < nlat)%nat -> (j < nlon)%nat ->
  regress_grace_maps erf tppf maps order START END MISSING ORDER [p; 1] = Ok out ->
  (forall m, In m months -> let x := tm m in v m i j = Some (rsum (ORDER + 1) (fun k => b k * (x - mean_time months tm) ^ k) + (s * sin (2 * PI * x / p) + c * cos (2 * PI * x / p) + s1 * sin (2 * PI * x) + c1 * cos (2 * PI * x)))) ->
  file out "AS" START END i j s /\ file out "AC" START END i j c /\ (forall l, In l (map o_name out) -> In l (firstn (ORDER + 1) ["x0"; "x1"; "x2"]%string ++ ["AS"; "AC"; "ANN_AMPL"; "ANN_PHASE"]%string ++ stat_names (nth ORDER ["x0"; "x1"; "x2"]%string EmptyString))).
Proof.
  intros erf tppf maps order START END MISSING ORDER p months nlat nlon fill tm v out i j b s c s1 c1 HM HI Hh H1 HN Hi Hj E HV.
  destruct (regress_run _ _ _ _ _ _ _ _ _ _ _ _ _ _ _ _ HM HI E) as (HO & cs & -> & CF). specialize (CF i j Hi Hj). set (x := at_cell cs i j) in *.
  assert (Tp : tides_of p = []). { destruct (tides_of p) as [|nd l] eqn:T; [reflexivity|]. assert (H : In nd (tides_of p)) by (rewrite T; left; reflexivity). apply tides_in in H. destruct H as (A1 & A2). destruct (HN nd A1 A2). }
  assert (T1 : tides_of 1 = []) by (apply tides_none; auto).
  assert (Lp : labels_of p = [] /\ amps_of p = []). { unfold labels_of, amps_of, is_half, is_one. rewrite Tp. destruct (Req_EM_T p (1 / 2)); [contradiction|]. destruct (Req_EM_T p 1); [contradiction|]. split; reflexivity. }
  assert (L1 : labels_of 1 = ["AS"; "AC"]%string /\ amps_of 1 = ["ANN"%string]). { unfold labels_of, amps_of, is_half, is_one. rewrite T1. destruct (Req_EM_T 1 (1 / 2)); [exfalso; lra|]. destruct (Req_EM_T 1 1); [split; reflexivity|contradiction]. }
  assert (AL : all_labels ORDER [p; 1] = (poly_labels ORDER ++ ["AS"; "AC"]%string)%list) by (unfold all_labels; cbn [flat_map]; rewrite (proj1 Lp), (proj1 L1); reflexivity).
  assert (AA : flat_map amps_of [p; 1] = ["ANN"%string]) by (cbn [flat_map]; rewrite (proj2 Lp), (proj2 L1); reflexivity).
  assert (FS : filter stays [p; 1] = [p; 1]) by (cbn [filter]; unfold stays; rewrite Tp, T1; reflexivity). assert (FT : forall t, flat_map (terms_of t) [p; 1] = []) by (intros t; cbn [flat_map]; unfold terms_of; rewrite Tp, T1; reflexivity).
  set (r := mean_time months tm) in *. set (t := map tm months) in *.
  set (fs := (map (fun k y => (y - r) ^ k) (seq 0 (ORDER + 1)) ++ [(fun y => sin (2 * PI * y / p)); (fun y => cos (2 * PI * y / p)); (fun y => sin (2 * PI * y / 1)); (fun y => cos (2 * PI * y / 1))])%list).
  assert (F : Forall2 (column_is t) (design ORDER r t (filter stays [p; 1]) (flat_map (terms_of t) [p; 1])) fs).
  { rewrite FS, FT. unfold design, fs. rewrite app_nil_r. apply Forall2_app.
    - generalize (seq 0 (ORDER + 1)). induction l as [|k l IH]; cbn [map]; constructor; [|exact IH]. intros q Hq. rewrite (nth_map _ t q 0) by exact Hq. reflexivity.
    - unfold cycle_cols. cbn [flat_map app]. repeat constructor; intros q Hq; rewrite (nth_map _ t q 0) by exact Hq; reflexivity. }
  set (bb := fun k => if (k <? ORDER + 1)%nat then b k else nth (k - (ORDER + 1)) [s; c; s1; c1] 0).
  assert (LP : List.length (poly_labels ORDER) = (ORDER + 1)%nat) by (unfold poly_labels; rewrite map_length, seq_length; reflexivity).
  assert (LF : List.length fs = (ORDER + 1 + 4)%nat) by (unfold fs; rewrite app_length, map_length, seq_length; reflexivity).
  assert (B : forall k, (k < List.length fs)%nat -> at_ (c_beta x) k = bb k).
  { refine (cell_mixture _ _ _ _ _ _ _ _ _ bb F CF _). intros m Hm. rewrite (HV m Hm). cbn [stored]. cbv zeta. unfold mixture. rewrite LF, (rsum_app (ORDER + 1) 4). f_equal.
    - apply rsum_ext. intros k Hk. unfold bb. destruct (Nat.ltb_spec k (ORDER + 1)); [|lia]. unfold fs. rewrite app_nth1 by (rewrite map_length, seq_length; exact Hk). rewrite (nth_map (fun k y => (y - r) ^ k) _ k 0%nat) by (rewrite seq_length; exact Hk). rewrite seq_nth by exact Hk. reflexivity.
    - assert (N : forall k, (k < 4)%nat -> bb (ORDER + 1 + k)%nat = nth k [s; c; s1; c1] 0 /\ nth (ORDER + 1 + k) fs (fun _ => 0) = nth k [(fun y => sin (2 * PI * y / p)); (fun y => cos (2 * PI * y / p)); (fun y => sin (2 * PI * y / 1)); (fun y => cos (2 * PI * y / 1))] (fun _ => 0)).
      { intros k Hk. unfold bb. destruct (Nat.ltb_spec (ORDER + 1 + k) (ORDER + 1)); [lia|]. split; [f_equal; lia|]. unfold fs. rewrite app_nth2 by (rewrite map_length, seq_length; lia). rewrite map_length, seq_length. f_equal. lia. }
      cbn [rsum]. destruct (N 0%nat ltac:(lia)) as (-> & ->). destruct (N 1%nat ltac:(lia)) as (-> & ->). destruct (N 2%nat ltac:(lia)) as (-> & ->). destruct (N 3%nat ltac:(lia)) as (-> & ->). cbn [nth]. unfold Rdiv. rewrite !Rinv_1, !Rmult_1_r. ring. }
  assert (G : forall q l y, (q < 2)%nat -> nth q ["AS"; "AC"]%string EmptyString = l -> nth q [s; c; s1; c1] 0 = y ->
    file (coef_maps (all_labels ORDER [p; 1]) (fun _ => START) (fun _ => END) cs ++ amp_maps (1 + ORDER) "_AMPL" START END (flat_map amps_of [p; 1]) cs ++ stat_maps (nth ORDER (all_labels ORDER [p; 1]) EmptyString) START END cs) l START END i j y).
  { intros q l y Hq E1 E2. assert (K : (ORDER + 1 + q < List.length (all_labels ORDER [p; 1%R]))%nat /\ nth (ORDER + 1 + q) (all_labels ORDER [p; 1]) EmptyString = l). { rewrite AL, app_length, app_nth2 by lia. rewrite LP. split; [cbn; lia|]. rewrite <- E1. f_equal. lia. }
    destruct K as (K1 & K2). eexists. split; [apply in_or_app; left; apply (coef_in _ (fun _ => START) (fun _ => END) cs _ K1)|]. cbn [o_name o_first o_last o_data o_mask]. fold x. rewrite K2, B by lia. unfold bb. destruct (Nat.ltb_spec (ORDER + 1 + q) (ORDER + 1)); [lia|].
    replace (ORDER + 1 + q - (ORDER + 1))%nat with q by lia. rewrite E2. repeat split; reflexivity. }
  split; [apply (G 0%nat); [lia|reflexivity|reflexivity]|]. split; [apply (G 1%nat); [lia|reflexivity|reflexivity]|]. intros l Hl. rewrite AA, AL in Hl. apply in_map_iff in Hl. destruct Hl as (f & <- & Hf). rewrite !in_app_iff in Hf. rewrite !in_app_iff.
  destruct Hf as [Hf|[Hf|Hf]].
  - unfold coef_maps in Hf. apply in_map_iff in Hf. destruct Hf as (k & <- & Hk). cbn [o_name]. apply in_seq in Hk. assert (HK : In (nth k (poly_labels ORDER ++ ["AS"; "AC"]%string) EmptyString) (poly_labels ORDER ++ ["AS"; "AC"]%string)) by (apply nth_In; lia).
    apply in_app_iff in HK. destruct HK as [HK|HK]; [left; destruct ORDER as [|[|[|q]]]; [exact HK..|lia]|right; left; cbn [In] in *; tauto].
  - unfold amp_maps in Hf. apply in_flat_map in Hf. destruct Hf as (k & Hk & Hf). apply in_seq in Hk. cbn [List.length] in Hk. assert (k = 0%nat) by lia. subst k. right; left. destruct Hf as [<-|[<-|[]]]; cbn; tauto.
  - right; right. unfold stat_maps in Hf. apply in_map_iff in Hf. destruct Hf as (k & <- & Hk). cbn [o_name]. replace (nth ORDER (poly_labels ORDER ++ ["AS"; "AC"]%string) EmptyString) with (nth ORDER ["x0"; "x1"; "x2"]%string EmptyString) by (destruct ORDER as [|[|[|q]]]; [reflexivity..|lia]).
    repeat (destruct Hk as [<-|Hk]; [cbn [fst snd stat_names In]; tauto|]). destruct Hk.
Qed.
Print Assumptions C104_unknown_refuted.
(** ** examples: maps with arbitrary values on eight months; the program returns, with annual and M2 aliasing terms in both orders, and with an unlabelled period *)
Definition ex_maps (nlat nlon : nat) (f : R) (tm : Z -> R) (v : Z -> nat -> nat -> option R) (m : Z) : res sp :=
  Ok (mksp (Arr.mkarr nlat nlon None (fun i j _ => match v m i j with Some x => Some x | None => Some f end)) (Arr.mkarr nlat nlon None (fun i j _ => match v m i j with Some _ => false | None => true end)) None
    (map INR (seq 0 nlon)) (map INR (seq 0 nlat)) (TScalar (tm m)) (TScalar m) (Some (Some f))).
Lemma ex_monthly nlat nlon f tm v months : months <> [] -> StronglySorted Z.lt months -> (forall m m', In m months -> In m' months -> (m < m')%Z -> tm m < tm m') ->
  monthly (ex_maps nlat nlon f tm v) (seq 0 (List.length months)) months nlat nlon (Some (Some f)) tm v.
Proof.
  intros NE SS HT. split; [exact NE|]. split; [|split; [exact HT|split; [apply Permutation_refl|]]].
  - exists false. intros m _. eexists. split; [reflexivity|]. split; [|split; [reflexivity|split; [reflexivity|]]].
    + unfold single_grid, SpatialModel.swf. cbn [sdata smask serr slon slat stime smonth rows cols Arr.depth]. rewrite !map_length, !seq_length. repeat split; try discriminate. exists (tm m), m. split; reflexivity.
    + intros i j Hi Hj. unfold seen. cbn [sdata smask get]. destruct (v m i j); split; intros; try discriminate; try reflexivity. exists f. reflexivity.
  - clear NE. assert (G : forall a n, (a + n <= List.length months)%nat -> StronglySorted Rle (map (fun k => tm (nth k months 0%Z)) (seq a n))); [|apply G; lia].
    intros a n. revert a. induction n as [|n IH]; intros a Hn; cbn [seq map]; constructor; [apply IH; lia|]. rewrite Forall_forall. intros y Hy. apply in_map_iff in Hy. destruct Hy as (k & <- & Hk). apply in_seq in Hk. apply Rlt_le. apply HT; [apply nth_In; lia|apply nth_In; lia|].
    assert (INC : forall a b, (a < b < List.length months)%nat -> (nth a months 0 < nth b months 0)%Z); [|apply INC; lia].
    clear - SS. induction SS as [|z l S IH F]; intros p q H; [cbn in H; lia|]. cbn [List.length] in H. rewrite Forall_forall in F. destruct p as [|p], q as [|q]; try lia; cbn [nth]; [apply F; apply nth_In; lia|apply IH; lia].
Qed.
Definition ex_months : list Z := [4; 5; 6; 7; 8; 9; 10; 11]%Z.
Definition ex_turn (m : Z) : Z := nth (Z.to_nat (m - 4)) [0; 1; 2; 4; 6; 904; 906; 908]%Z 0%Z.
Definition ex_tm (m : Z) : R := 9 / 4 * IZR (ex_turn m).
Lemma ex_months_are : months_are 4 11 [] ex_months.
Proof. split; [repeat constructor|]. intros m. cbn [ex_months In]. split; [intros H; split; [lia|tauto]|intros (H & _); lia]. Qed.
Lemma ex_maps_ok nlat nlon f v : monthly (ex_maps nlat nlon f ex_tm v) (seq 0 8) ex_months nlat nlon (Some (Some f)) ex_tm v.
Proof.
  apply (ex_monthly nlat nlon f ex_tm v ex_months); [discriminate|exact (proj1 ex_months_are)|]. intros m m' H H' L. unfold ex_tm. apply Rmult_lt_compat_l; [lra|]. apply IZR_lt.
  assert (G : forall m, In m [4; 5; 6; 7; 8; 9; 10; 11]%Z -> (m = 4 \/ m = 5 \/ m = 6 \/ m = 7 \/ m = 8 \/ m = 9 \/ m = 10 \/ m = 11)%Z) by (intros z Hz; cbn [In] in Hz; lia).
  apply G in H. apply G in H'. destruct H as [->|[->|[->|[->|[->|[->|[->| ->]]]]]]]; destruct H' as [->|[->|[->|[->|[->|[->|[->| ->]]]]]]]; try (exfalso; lia); reflexivity.
Qed.
Lemma turns x n q : (0 <= n)%Z -> x = 2 * PI * (IZR n + q) -> sin x = sin (2 * PI * q) /\ cos x = cos (2 * PI * q).
Proof.
  intros Hn ->. replace (IZR n) with (INR (Z.to_nat n)) by (rewrite INR_IZR_INZ, Z2Nat.id by exact Hn; reflexivity). replace (2 * PI * (INR (Z.to_nat n) + q)) with (2 * PI * q + 2 * INR (Z.to_nat n) * PI) by ring. split; [apply sin_period|apply cos_period].
Qed.
Lemma quarters : (sin (2 * PI * 0) = 0 /\ cos (2 * PI * 0) = 1) /\ (sin (2 * PI * (1 / 4)) = 1 /\ cos (2 * PI * (1 / 4)) = 0) /\ (sin (2 * PI * (1 / 2)) = 0 /\ cos (2 * PI * (1 / 2)) = -1) /\ (sin (2 * PI * (3 / 4)) = -1 /\ cos (2 * PI * (3 / 4)) = 0).
Proof.
  rewrite Rmult_0_r, sin_0, cos_0. replace (2 * PI * (1 / 4)) with (PI / 2) by field. replace (2 * PI * (1 / 2)) with PI by field. replace (2 * PI * (3 / 4)) with (3 * (PI / 2)) by field.
  rewrite sin_PI2, cos_PI2, sin_PI, cos_PI, sin_3PI2, cos_3PI2. repeat split.
Qed.
Definition ex_m2 : R := 135 / 10 / (36525 / 100).
Lemma ex_stands : stands_for ex_m2 (135 / 10).
Proof. unfold stands_for, ex_m2. rewrite Rminus_diag_eq by reflexivity. rewrite Rabs_R0. lra. Qed.
Lemma ex_in : In ("M2"%string, 135 / 10) alias_days.
Proof. unfold alias_days. cbn [In]. do 6 right. left. reflexivity. Qed.
Lemma ex_order : in_order [1; ex_m2] /\ distinct [1; ex_m2].
Proof.
  split.
  - exists [1], [ex_m2]. split; [reflexivity|]. split; [intros y [<-|[]]; right; reflexivity|]. intros y [<-|[]]. exists ("M2"%string, 135 / 10). split; [exact ex_in|exact ex_stands].
  - unfold distinct. constructor; [constructor; [|constructor]|constructor; constructor]. split; [unfold ex_m2; lra|]. intros nd' H' (S' & _). apply (not_alias 1 (or_intror eq_refl) nd' H' S').
Qed.
Definition ex_labels : list string := ["x0"; "AS"; "AC"; "M2SGRC"; "M2CGRC"; "M2SGFO"; "M2CGFO"]%string.
Lemma ex_asked CYCLES : CYCLES = [1; ex_m2] \/ CYCLES = [ex_m2; 1] -> forall l, In l ex_labels <-> asked 0 CYCLES l.
Proof.
  intros EC l. assert (IC : forall y, In y CYCLES <-> y = 1 \/ y = ex_m2) by (intros y; destruct EC as [-> | ->]; cbn [In]; intuition). unfold asked. cbn [Nat.add firstn]. split.
  - intros H. unfold ex_labels in H. cbn [In] in H. destruct H as [<-|[<-|[<-|[<-|[<-|[<-|[<-|[]]]]]]]]; [left; left; reflexivity|right; right; left; split; [apply IC; auto|cbn; auto]|right; right; left; split; [apply IC; auto|cbn; auto]|..];
      right; right; right; exists ex_m2, ("M2"%string, 135 / 10); (split; [apply IC; auto|split; [exact ex_in|split; [exact ex_stands|cbn; auto]]]).
  - intros [H|[(H & _)|[(_ & H)|(c & nd & H & H1 & H2 & H3)]]].
    + cbn [In] in H. destruct H as [<-|[]]. left; reflexivity.
    + exfalso. apply IC in H. unfold ex_m2 in H. lra.
    + cbn [In] in H. destruct H as [<-|[<-|[]]]; cbn; tauto.
    + apply IC in H. destruct H as [->| ->]; [destruct (not_alias 1 (or_intror eq_refl) nd H1 H2)|]. rewrite (alias_one ex_m2 nd ("M2"%string, 135 / 10) H1 ex_in H2 ex_stands) in H3. cbn [fst In append] in H3. destruct H3 as [<-|[<-|[<-|[<-|[]]]]]; cbn; tauto.
Qed.
Lemma ex_apart r : told_apart r ex_labels ex_months ex_tm.
Proof.
  intros c Hc. destruct quarters as ((q0 & q0') & (q1 & q1') & (q2 & q2') & (q3 & q3')).
  assert (EV : forall m gfo sa ca sm cm, In m ex_months -> (if Rlt_dec (ex_tm m) 2018 then false else true) = gfo -> sin (2 * PI * ex_tm m) = sa -> cos (2 * PI * ex_tm m) = ca ->
    sin (2 * PI * (ex_tm m * (36525 / 100)) / (135 / 10)) = sm -> cos (2 * PI * (ex_tm m * (36525 / 100)) / (135 / 10)) = cm ->
    c "x0"%string + c "AS"%string * sa + c "AC"%string * ca + (if gfo then c "M2SGFO"%string * sm + c "M2CGFO"%string * cm else c "M2SGRC"%string * sm + c "M2CGRC"%string * cm) = 0).
  { intros m gfo sa ca sm cm Hm <- <- <- <- <-. pose proof (Hc m Hm) as E. unfold combined, ex_labels in E. cbn [map Sum fold_right] in E.
    change (meaning r "x0" (ex_tm m)) with 1 in E. change (meaning r "AS" (ex_tm m)) with (sin (2 * PI * ex_tm m)) in E. change (meaning r "AC" (ex_tm m)) with (cos (2 * PI * ex_tm m)) in E.
    change (meaning r "M2SGRC" (ex_tm m)) with (if (if Rlt_dec (ex_tm m) 2018 then false else true) then 0 else sin (2 * PI * (ex_tm m * (36525 / 100)) / (135 / 10))) in E.
    change (meaning r "M2CGRC" (ex_tm m)) with (if (if Rlt_dec (ex_tm m) 2018 then false else true) then 0 else cos (2 * PI * (ex_tm m * (36525 / 100)) / (135 / 10))) in E.
    change (meaning r "M2SGFO" (ex_tm m)) with (if (if Rlt_dec (ex_tm m) 2018 then false else true) then sin (2 * PI * (ex_tm m * (36525 / 100)) / (135 / 10)) else 0) in E.
    change (meaning r "M2CGFO" (ex_tm m)) with (if (if Rlt_dec (ex_tm m) 2018 then false else true) then cos (2 * PI * (ex_tm m * (36525 / 100)) / (135 / 10)) else 0) in E.
    destruct (Rlt_dec (ex_tm m) 2018); lra. }
  assert (G : forall m n qn na qa, In m ex_months -> (if Rlt_dec (ex_tm m) 2018 then false else true) = n -> (0 <= na)%Z -> ex_tm m = IZR na + qa -> forall nm qm, (0 <= nm)%Z -> ex_tm m * (36525 / 100) / (135 / 10) = IZR nm + qm -> qn = tt ->
    c "x0"%string + c "AS"%string * sin (2 * PI * qa) + c "AC"%string * cos (2 * PI * qa) + (if n then c "M2SGFO"%string * sin (2 * PI * qm) + c "M2CGFO"%string * cos (2 * PI * qm) else c "M2SGRC"%string * sin (2 * PI * qm) + c "M2CGRC"%string * cos (2 * PI * qm)) = 0).
  { intros m n qn na qa Hm Hg Ha Ea nm qm Hm' Em _. destruct (turns (2 * PI * ex_tm m) na qa Ha ltac:(rewrite Ea; ring)) as (S1 & C1). destruct (turns (2 * PI * (ex_tm m * (36525 / 100)) / (135 / 10)) nm qm Hm') as (S2 & C2).
    { rewrite <- Em. field. } apply (EV m n); assumption. }
  assert (gr : forall m, ex_tm m < 2018 -> (if Rlt_dec (ex_tm m) 2018 then false else true) = false) by (intros m H; destruct (Rlt_dec _ _); [reflexivity|contradiction]).
  assert (fo : forall m, 2018 <= ex_tm m -> (if Rlt_dec (ex_tm m) 2018 then false else true) = true) by (intros m H; destruct (Rlt_dec _ _); [lra|reflexivity]).
  assert (T4 : ex_tm 4 = 0) by (unfold ex_tm; change (ex_turn 4) with 0%Z; lra). assert (T5 : ex_tm 5 = 9 / 4) by (unfold ex_tm; change (ex_turn 5) with 1%Z; lra). assert (T6 : ex_tm 6 = 9 / 2) by (unfold ex_tm; change (ex_turn 6) with 2%Z; lra).
  assert (T7 : ex_tm 7 = 9) by (unfold ex_tm; change (ex_turn 7) with 4%Z; lra). assert (T8 : ex_tm 8 = 27 / 2) by (unfold ex_tm; change (ex_turn 8) with 6%Z; lra). assert (T9 : ex_tm 9 = 2034) by (unfold ex_tm; change (ex_turn 9) with 904%Z; lra).
  assert (T10 : ex_tm 10 = 4077 / 2) by (unfold ex_tm; change (ex_turn 10) with 906%Z; lra).
  assert (I : forall m, (4 <= m <= 11)%Z -> In m ex_months) by (intros m H; apply (proj2 (proj2 ex_months_are m)); split; [exact H|intros []]).
  pose proof (G 4%Z false tt 0%Z 0 (I 4%Z ltac:(lia)) (gr 4%Z ltac:(lra)) ltac:(lia) ltac:(lra) 0%Z 0 ltac:(lia) ltac:(lra) eq_refl) as E4.
  pose proof (G 5%Z false tt 2%Z (1 / 4) (I 5%Z ltac:(lia)) (gr 5%Z ltac:(lra)) ltac:(lia) ltac:(lra) 60%Z (7 / 8) ltac:(lia) ltac:(lra) eq_refl) as E5.
  pose proof (G 6%Z false tt 4%Z (1 / 2) (I 6%Z ltac:(lia)) (gr 6%Z ltac:(lra)) ltac:(lia) ltac:(lra) 121%Z (3 / 4) ltac:(lia) ltac:(lra) eq_refl) as E6.
  pose proof (G 7%Z false tt 9%Z 0 (I 7%Z ltac:(lia)) (gr 7%Z ltac:(lra)) ltac:(lia) ltac:(lra) 243%Z (1 / 2) ltac:(lia) ltac:(lra) eq_refl) as E7.
  pose proof (G 8%Z false tt 13%Z (1 / 2) (I 8%Z ltac:(lia)) (gr 8%Z ltac:(lra)) ltac:(lia) ltac:(lra) 365%Z (1 / 4) ltac:(lia) ltac:(lra) eq_refl) as E8.
  pose proof (G 9%Z true tt 2034%Z 0 (I 9%Z ltac:(lia)) (fo 9%Z ltac:(lra)) ltac:(lia) ltac:(lra) 55031%Z 0 ltac:(lia) ltac:(lra) eq_refl) as E9.
  pose proof (G 10%Z true tt 2038%Z (1 / 2) (I 10%Z ltac:(lia)) (fo 10%Z ltac:(lra)) ltac:(lia) ltac:(lra) 55152%Z (3 / 4) ltac:(lia) ltac:(lra) eq_refl) as E10.
  rewrite ?q0, ?q0', ?q1, ?q1', ?q2, ?q2', ?q3, ?q3' in *. assert (X : c "x0"%string = 0 /\ c "AC"%string = 0 /\ c "M2SGRC"%string = 0 /\ c "M2CGRC"%string = 0 /\ c "M2SGFO"%string = 0 /\ c "M2CGFO"%string = 0) by (repeat split; lra).
  destruct X as (X0 & X1 & X2 & X3 & X4 & X5). rewrite X2, X3 in E5. assert (X6 : c "AS"%string = 0) by lra. intros l Hl. unfold ex_labels in Hl. cbn [In] in Hl. destruct Hl as [<-|[<-|[<-|[<-|[<-|[<-|[<-|[]]]]]]]]; assumption.
Qed.
Theorem C104_example : forall erf tppf nlat nlon f v, (0 < nlat)%nat -> (0 < nlon)%nat ->
  months_are 4 11 [] ex_months /\ monthly (ex_maps nlat nlon f ex_tm v) (seq 0 8) ex_months nlat nlon (Some (Some f)) ex_tm v /\ in_order [1; ex_m2] /\ distinct [1; ex_m2] /\ ~ in_order [ex_m2; 1] /\
  (exists out, regress_grace_maps erf tppf (ex_maps nlat nlon f ex_tm v) (seq 0 8) 4 11 [] 0 [1; ex_m2] = Ok out) /\
  (exists out, regress_grace_maps erf tppf (ex_maps nlat nlon f ex_tm v) (seq 0 8) 4 11 [] 0 [ex_m2; 1] = Ok out /\
     (* annual sine of amplitude 5: the M2 map shows it and the annual map is zero *)
     ((forall m, In m ex_months -> v m 0%nat 0%nat = Some (5 * sin (2 * PI * ex_tm m))) -> file out "M2SGRC" 4 11 0 0 5 /\ file out "AS" 4 11 0 0 0)).
Proof.
  intros erf tppf nlat nlon f v Hn Hm. pose proof ex_months_are as HM. pose proof (ex_maps_ok nlat nlon f v) as HI. destruct ex_order as (HA & HD). split; [exact HM|]. split; [exact HI|]. split; [exact HA|]. split; [exact HD|]. split.
  { intros (reg & al & E & HR & HL). destruct reg as [|c reg].
    - cbn [app] in E. subst al. destruct (HL 1 (or_intror (or_introl eq_refl))) as (nd & H1 & H2). apply (not_alias 1 (or_intror eq_refl) nd H1 H2).
    - cbn [app] in E. injection E as <- _. destruct (HR ex_m2 (or_introl eq_refl)); unfold ex_m2 in *; lra. }
  assert (ND : NoDup ex_labels) by (apply nodupb_ok; reflexivity).
  assert (O1 : exists out, regress_grace_maps erf tppf (ex_maps nlat nlon f ex_tm v) (seq 0 8) 4 11 [] 0 [1; ex_m2] = Ok out).
  { apply (C104_returns erf tppf _ _ _ _ _ _ _ _ _ _ _ _ _ HM HI HA HD Hn Hm); [cbn; lia|]. split; [lia|]. exists ex_labels. split; [exact ND|]. split; [apply ex_asked; auto|]. split; [cbn; lia|]. apply ex_apart. }
  split; [exact O1|]. destruct O1 as (o1 & E1). destruct (regress_run _ _ _ _ _ _ _ _ _ _ _ _ _ _ _ _ HM HI E1) as (HO & cs & _ & CF).
  assert (S1 : stays 1 = true) by (unfold stays; rewrite (tides_none 1); auto). assert (Sa : stays ex_m2 = false) by (unfold stays; rewrite (tides_one ex_m2 _ ex_in ex_stands); reflexivity).
  assert (T1 : forall t, terms_of t 1 = []) by (intros t; unfold terms_of; rewrite (tides_none 1); auto).
  assert (RC : forall t d, regress_cell erf tppf t 0 [ex_m2; 1] d = regress_cell erf tppf t 0 [1; ex_m2] d).
  { intros t d. unfold regress_cell. cbn [filter flat_map]. rewrite S1, Sa, T1. cbn [app]. reflexivity. }
  destruct (regress_total erf tppf _ _ 4%Z 11%Z [] 0 [ex_m2; 1] _ _ _ _ _ _ HM HI HO) as (o2 & E2). { intros i j Hi Hj. rewrite RC. eexists. apply CF; assumption. }
  exists o2. split; [exact E2|]. intros HV. set (c := fun l : string => if String.eqb l "AS" then 5 else 0).
  pose proof (C104_order_refuted erf tppf _ _ _ _ _ _ ex_m2 ("M2"%string, 135 / 10) _ _ _ _ _ _ o2 0%nat 0%nat c ex_labels HM HI ex_in ex_stands Hn Hm E2 ND (ex_asked _ (or_intror eq_refl))) as F. cbv zeta in F. destruct F as (F1 & _ & _ & _ & F5 & _).
  { intros m Hm'. rewrite (HV m Hm'). f_equal. unfold combined, ex_labels, c. cbn [map Sum fold_right String.eqb Ascii.eqb Bool.eqb]. change (meaning (mean_time ex_months ex_tm) "AS" (ex_tm m)) with (sin (2 * PI * ex_tm m)). ring. }
  split; [exact F1|exact F5].
Qed.
Print Assumptions C104_example.
