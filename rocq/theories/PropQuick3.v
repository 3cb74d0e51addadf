(** C112, third part: amplitudes and phases, when the program returns, failed runs, several files, refuted claims, examples. *)
From Coq Require Import Reals Lra String List Permutation Sorted.
From Verif Require Import Base DestripeModel DestripeProofs LinAlg RegressModel RegressProofs PropRegress PropRegress2 PropPiecewise TsModel.
From Verif Require Import TrendMapModel PropTrendMap PropTrendMap2 PropTrendMap3 PropTrendMap4 QuickModel PropQuick PropQuick2.
Close Scope Z_scope.
Open Scope R_scope.

Lemma cycle_len t cs : List.length (cycle_cols t cs) = (2 * List.length cs)%nat.
Proof. unfold cycle_cols. induction cs as [|c l IH]; [reflexivity|]. cbn [flat_map]. rewrite app_length, IH. cbn [List.length]. lia. Qed.
Definition n_cols (cycles : list R) (t : list R) : nat := (List.length (cycle_cols t (filter stays cycles)) + List.length (flat_map (terms_of t) cycles))%nat.
(** the number of estimates *)
Lemma fit_count erf tppf rows order bp cycles q : fit_rows erf tppf rows order bp cycles = Ok q -> List.length (q_beta q) = (List.length (first_labels order bp) + n_cols cycles (map row_time rows))%nat.
Proof.
  unfold fit_rows, n_cols. set (t := map row_time rows). destruct bp as [m|].
  - destruct (month_index (map row_month rows) m) as [|k [|k' l']] eqn:EM; [discriminate| |discriminate]. destruct (month_row rows m k EM) as (Hk & _). destruct (piecewise erf tppf t _ _ _ _ _ _ _ _ _ _) as [g|] eqn:G; cbn [bind]; [|discriminate]. intros E. assert (X : forall a b : fitted, Ok a = Ok b -> b = a) by congruence. apply X in E. rewrite E. cbn [q_beta].
    destruct (piecewise_inv _ _ _ _ _ _ _ _ ltac:(unfold t; rewrite map_length; exact Hk) G) as (f & st & EF & _ & _ & _ & -> & _). rewrite upd_length. destruct (core_ok _ _ _ _ _ _ _ EF) as (s & (_ & _ & _ & _ & _ & -> & _) & _). unfold pw_design. rewrite !app_length. change (List.length (first_labels order (Some m))) with 3%nat. cbn [List.length]. fold t. lia.
  - destruct order as [o|]; [|discriminate]. destruct (regress erf tppf t _ _ _ _ _ _ _ _ _ _) as [g|] eqn:G; cbn [bind]; [|discriminate]. intros E. assert (X : forall a b : fitted, Ok a = Ok b -> b = a) by congruence. apply X in E. rewrite E. cbn [q_beta].
    destruct (regress_inv _ _ _ _ _ _ _ _ G) as (f & st & EF & _ & _ & -> & _). destruct (core_ok _ _ _ _ _ _ _ EF) as (s & (_ & _ & _ & _ & _ & -> & _) & _). rewrite design_count. cbn [first_labels]. rewrite map_length, seq_length. fold t; lia.
Qed.
Lemma labels_len order bp cycles : List.length (labels_all order bp cycles) = (List.length (first_labels order bp) + List.length (flat_map labels_of cycles))%nat.
Proof. unfold labels_all. rewrite app_length, map_length. reflexivity. Qed.
Lemma run_known erf tppf old rows order bp cycles stream ls : prints (run_regress erf tppf old rows order bp cycles stream) old stream ls -> exists q, fit_rows erf tppf rows order bp cycles = Ok q /\ summary order bp cycles q = (ls, Ok tt) /\
  List.length (q_beta q) = List.length (labels_all order bp cycles) /\ forall c, In c cycles -> known c.
Proof.
  intros P. apply run_prints in P. destruct P as (q & L2 & EQ & ES). destruct (summary_ok _ _ _ _ _ ES) as (LB & _). cbv zeta in LB. exists q. split; [exact EQ|]. split; [exact ES|].
  rewrite (fit_count _ _ _ _ _ _ _ EQ) in *. rewrite labels_len in *. unfold n_cols in *. destruct (counts (map row_time rows) cycles) as (C1 & C2). cbv zeta in *. split; [lia|]. apply C2. lia.
Qed.
(** ** the lines of amplitudes and phases *)
Theorem C112_waves : forall erf tppf old rows order bp cycles stream ls, prints (run_regress erf tppf old rows order bp cycles stream) old stream ls ->
  (forall flag sl cl, wanted cycles (flag, (sl, cl)) -> exists s c ses sec ces cec A P ea ca ep cp,
     In (Coef (Named sl) s ses ces) ls /\ In (Coef (Named cl) c sec cec) ls /\ In (Ampl flag A ea ca) ls /\ In (Phase flag P ep cp) ls /\ wave A P s c /\
     (A <> 0 -> wave_errors s c ses sec ea ep /\ wave_errors s c ces cec ca cp)) /\
  (forall flag x e c, In (Ampl flag x e c) ls \/ In (Phase flag x e c) ls -> exists sl cl, wanted cycles (flag, (sl, cl))).
Proof.
  intros erf tppf old rows order bp cycles stream ls P. destruct (run_known _ _ _ _ _ _ _ _ _ P) as (q & EQ & ES & LB & _). destruct (summary_ok _ _ _ _ _ ES) as (_ & EL). cbv zeta in EL.
  destruct (amps_pairs cycles) as (EA & EP). set (ps := flat_map pairs_of cycles) in *. set (base := List.length (first_labels order bp)) in *. rewrite EA in EL. set (labels := labels_all order bp cycles) in *.
  assert (LN : forall j, nth (base + j) labels Bent = nth j (map Named (both ps)) Bent). { intros j. unfold labels, labels_all. rewrite app_nth2 by (unfold base; lia). rewrite EP. f_equal. unfold base. lia. }
  assert (LL : List.length labels = (base + List.length (both ps))%nat) by (unfold labels; rewrite labels_len, EP; reflexivity).
  split.
  - intros flag sl cl W. apply wanted_in in W. fold ps in W. apply (In_nth _ _ (EmptyString, (EmptyString, EmptyString))) in W. destruct W as (n & Hn & EN). destruct (pair_nth ps n (EmptyString, (EmptyString, EmptyString)) Hn) as (N1 & N2 & N3). rewrite EN in N1, N2. cbn [fst snd] in N1, N2.
    set (j := (base + 2 * n)%nat). exists (at_ (q_beta q) j), (at_ (q_beta q) (j + 1)), (at_ (q_std q) j), (at_ (q_std q) (j + 1)), (at_ (q_err q) j), (at_ (q_err q) (j + 1)), (amp_of base n q), (ph_of base n q), (amp_err base n q (q_std q)), (amp_err base n q (q_err q)), (ph_err base n q (q_std q)), (ph_err base n q (q_err q)).
    assert (NA : nth n (map fst ps) EmptyString = flag) by (rewrite (nth_map fst ps n (EmptyString, (EmptyString, EmptyString))) by exact Hn; rewrite EN; reflexivity).
    assert (C : forall k, (k < List.length labels)%nat -> In (Coef (nth k labels Bent) (at_ (q_beta q) k) (at_ (q_std q) k) (at_ (q_err q) k)) ls).
    { intros k Hk. rewrite EL. right. apply in_app_iff. left. apply in_map_iff. exists k. split; [reflexivity|]. apply in_seq. rewrite LB. lia. }
    split. { specialize (C j ltac:(unfold j; lia)). unfold j in C at 1. rewrite LN, (nth_map Named (both ps) (2 * n) EmptyString) in C by lia. rewrite N1 in C. exact C. }
    split. { specialize (C (j + 1)%nat ltac:(unfold j; lia)). replace (j + 1)%nat with (base + (2 * n + 1))%nat in C at 1 by (unfold j; lia). rewrite LN, (nth_map Named (both ps) (2 * n + 1) EmptyString) in C by lia. rewrite N2 in C. exact C. }
    split. { rewrite EL. right. apply in_app_iff. right. apply in_app_iff. left. unfold wave_lines. apply in_app_iff. left. apply in_map_iff. exists n. rewrite NA. split; [reflexivity|]. apply in_seq. rewrite map_length. lia. }
    split. { rewrite EL. right. apply in_app_iff. right. apply in_app_iff. left. unfold wave_lines. apply in_app_iff. right. apply in_map_iff. exists n. rewrite NA. split; [reflexivity|]. apply in_seq. rewrite map_length. lia. }
    split; [apply phase_wave|]. intros HA. unfold amp_of in HA. fold j in HA. split; apply errors_ok; exact HA.
  - intros flag x e c H. assert (G : In flag (map fst ps)).
    { assert (IN : In (Ampl flag x e c) (wave_lines base (map fst ps) q) \/ In (Phase flag x e c) (wave_lines base (map fst ps) q)).
      { rewrite EL in H. destruct H as [[H|H]|[H|H]]; try discriminate H; apply in_app_iff in H; (destruct H as [H|H]; [apply in_map_iff in H; destruct H as (k & H & _); discriminate H|]); apply in_app_iff in H; (destruct H as [H|H]; [auto|]); (destruct H as [H|H]; [discriminate H|]); apply in_map_iff in H; destruct H as (k & H & _); discriminate H. }
      unfold wave_lines in IN. rewrite !in_app_iff, !in_map_iff in IN. destruct IN as [[(k & E & Hk)|(k & E & Hk)]|[(k & E & Hk)|(k & E & Hk)]]; try discriminate E; injection E as <- _ _ _; apply in_seq in Hk; apply nth_In; lia. }
    apply in_map_iff in G. destruct G as ((fl & sl & cl) & <- & H2). exists sl, cl. apply wanted_in. exact H2.
Qed.
Print Assumptions C112_waves.
(** ** when the program returns *)
Lemma core_returns_rows D rows fs : Forall2 (column_is (map row_time rows)) D fs -> columns_ok D (List.length rows) ->
  (exists f, fit_core D (List.length rows) (map row_value rows) (Scalar 0) false false = Ok f) <-> apart rows fs /\ List.length rows <> List.length fs.
Proof.
  intros F CO. pose proof (F2_len _ _ _ F) as LF. rewrite (core_returns D (List.length rows) (map row_value rows) (Scalar 0) false CO (map_length _ _) ltac:(discriminate)). rewrite LF. apply and_iff_compat_r.
  assert (E : forall b i, (i < List.length rows)%nat -> comb (List.length fs) (col D) b i = mixture fs b (row_time (nth i rows row0))).
  { intros b i Hi. unfold comb, mixture. apply rsum_ext. intros l Hl. f_equal. unfold col, at_. rewrite (F2_nth _ _ _ [] (fun _ => 0) l F) by (rewrite ?LF, ?map_length; assumption). f_equal. apply nth_map. exact Hi. }
  split; intros H b Hb; apply H.
  - intros i Hi. rewrite E by exact Hi. apply Hb. apply nth_In. exact Hi.
  - intros x Hx. apply (In_nth _ _ row0) in Hx. destruct Hx as (i & Hi & <-). rewrite <- E by exact Hi. apply Hb. exact Hi.
Qed.
Lemma cols_ok t cycles c : In c (cycle_cols t (filter stays cycles) ++ flat_map (terms_of t) cycles)%list -> List.length c = List.length t.
Proof. intros H. apply in_app_iff in H. destruct H as [H|H]; [|apply (terms_length t cycles); exact H]. unfold cycle_cols in H. apply in_flat_map in H. destruct H as (y & _ & [<-|[<-|[]]]); apply map_length. Qed.
Lemma mixture_cons f fs b x : mixture (f :: fs) b x = b 0%nat * f x + mixture fs (fun k => b (S k)) x.
Proof. unfold mixture. cbn [List.length]. rewrite rsum_head. reflexivity. Qed.
Lemma apart_perm rows fs fs' : Permutation fs fs' -> apart rows fs -> apart rows fs'.
Proof.
  intros P. assert (G : forall b, exists b', (forall x, mixture fs' b x = mixture fs b' x) /\ ((forall k, (k < List.length fs)%nat -> b' k = 0) -> forall k, (k < List.length fs')%nat -> b k = 0)).
  { induction P as [|f l l' P IH|f g l|l1 l2 l3 P1 IH1 P2 IH2]; intros b.
    - exists b. split; [reflexivity|]. intros _ k Hk. cbn in Hk. lia.
    - destruct (IH (fun k => b (S k))) as (b' & E & Z). exists (fun k => match k with O => b 0%nat | S k => b' k end). split.
      + intros x. rewrite !mixture_cons, E. reflexivity.
      + intros H k Hk. destruct k as [|k]; [apply (H 0%nat); cbn; lia|]. cbn [List.length] in Hk. apply (Z (fun j Hj => H (S j) ltac:(cbn; lia)) k). lia.
    - exists (fun k => match k with O => b 1%nat | S O => b 0%nat | S (S k) => b (S (S k)) end). split.
      + intros x. rewrite !mixture_cons. ring.
      + intros H k Hk. cbn [List.length] in *. destruct k as [|[|k]]; [apply (H 1%nat); lia|apply (H 0%nat); lia|apply (H (S (S k))); lia].
    - destruct (IH2 b) as (b2 & E2 & Z2). destruct (IH1 b2) as (b1 & E1 & Z1). exists b1. split; [intros x; rewrite E2; apply E1|]. intros H. apply Z2, Z1, H. }
  intros A b Hb. destruct (G b) as (b' & E & Z). apply Z. apply A. intros x Hx. rewrite <- E. apply Hb. exact Hx.
Qed.
Lemma regress_any erf tppf t d o cs Ts f : List.length t <> 1%nat -> fit_core (design o (mean_ t) t cs Ts) (List.length t) d (Scalar 0) false false = Ok f -> exists q, regress erf tppf t d o cs Ts (Scalar 0) false RelAll 0 (95 / 100) false = Ok q.
Proof. intros L EF. unfold regress. destruct (Nat.eqb_spec (List.length t) 1); [contradiction|]. cbn [t_rel bind]. rewrite EF. cbn [bind is_scalar]. destruct (Req_EM_T 0 0); [|contradiction]. eexists. reflexivity. Qed.
Lemma piecewise_any erf tppf t d k cs Ts f : (k < List.length t)%nat -> List.length t <> 1%nat -> fit_core (pw_design t k (nth k t 0) cs Ts) (List.length t) d (Scalar 0) false false = Ok f ->
  exists q, piecewise erf tppf t d (Some (Z.of_nat k)) None cs Ts (Scalar 0) false 0 (95 / 100) false = Ok q.
Proof.
  intros Hk L EF. unfold piecewise. destruct (Nat.eqb_spec (List.length t) 1); [contradiction|].
  assert (EB : RegressModel.breakpoint t (Some (Z.of_nat k)) None = Ok (k, nth k t 0)).
  { pose proof (break_at (fun z => nth (Z.to_nat z) t 0) (map Z.of_nat (seq 0 (List.length t))) k) as B. rewrite map_map, map_length, seq_length in B. specialize (B Hk).
    replace (map (fun x => nth (Z.to_nat (Z.of_nat x)) t 0) (seq 0 (List.length t))) with t in B.
    2:{ apply nth_ext with (d := 0) (d' := nth (Z.to_nat (Z.of_nat 0)) t 0); [rewrite map_length, seq_length; reflexivity|]. intros i Hi. rewrite (map_nth (fun x => nth (Z.to_nat (Z.of_nat x)) t 0)), seq_nth by exact Hi. rewrite Nat2Z.id. reflexivity. }
    rewrite B. rewrite (nth_map Z.of_nat _ k 0%nat) by (rewrite seq_length; exact Hk). rewrite seq_nth, Nat2Z.id by exact Hk. reflexivity. }
  rewrite EB. cbn [bind]. rewrite EF. cbn [bind is_scalar]. destruct (Req_EM_T 0 0); [|contradiction]. eexists. reflexivity.
Qed.
Lemma summary_known order bp cycles q t : List.length (q_beta q) = (List.length (first_labels order bp) + n_cols cycles t)%nat -> (forall c, In c cycles -> known c) -> exists ls, summary order bp cycles q = (ls, Ok tt).
Proof.
  intros L K. unfold summary, coef_lines. fold (labels_all order bp cycles). destruct (Nat.leb_spec (List.length (q_beta q)) (List.length (labels_all order bp cycles))) as [H|H]; [eexists; reflexivity|].
  exfalso. rewrite labels_len, L in H. unfold n_cols in H. destruct (counts t cycles) as (_ & C). cbv zeta in C. rewrite (proj2 C K) in H. lia.
Qed.
Theorem C112_returns : forall erf tppf old rows o cycles stream, in_order cycles -> distinct cycles ->
  (exists ls, prints (run_regress erf tppf old rows (Some o) None cycles stream) old stream ls) <->
  (2 <= List.length rows)%nat /\ exists labels, NoDup labels /\ (forall l, In l labels <-> (exists k, l = Poly k /\ (k <= o)%nat) \/ exists s, l = Named s /\ periodic cycles s) /\ (List.length labels < List.length rows)%nat /\
    apart rows (map (shown (mean_of_times rows)) labels).
Proof.
  intros erf tppf old rows o cycles stream HA HD. set (t := map row_time rows). assert (LT : List.length t = List.length rows) by apply map_length. assert (MT : mean_ t = mean_of_times rows) by (unfold t; rewrite mean_sum, map_length; reflexivity).
  set (L := labels_all (Some o) None cycles). assert (HL : forall l, In l L <-> (exists k, l = Poly k /\ (k <= o)%nat) \/ exists s, l = Named s /\ periodic cycles s).
  { intros l. unfold L, labels_all, first_labels. rewrite in_app_iff, !in_map_iff. split.
    - intros [(k & <- & Hk)|(s & <- & Hs)]; [left; apply in_seq in Hk; exists k; split; [reflexivity|lia]|right; exists s; split; [reflexivity|apply periodic_labels; exact Hs]].
    - intros [(k & -> & Hk)|(s & -> & Hs)]; [left; exists k; split; [reflexivity|apply in_seq; lia]|right; exists s; split; [reflexivity|apply periodic_labels; exact Hs]]. }
  assert (ND : NoDup L).
  { unfold L, labels_all, first_labels. assert (NN : NoDup (map Named (flat_map labels_of cycles))) by (apply FinFun.Injective_map_NoDup; [intros a b E; injection E; auto|apply rest_nodup; assumption]).
    assert (NP : NoDup (map Poly (seq 0 (o + 1)))) by (apply FinFun.Injective_map_NoDup; [intros a b E; injection E; auto|apply seq_NoDup]). clear - NN NP. induction (seq 0 (o + 1)) as [|k l IH]; cbn [map app] in *; [exact NN|]. inversion_clear NP. constructor; [|apply IH; assumption].
    rewrite in_app_iff. intros [X|X]; [contradiction|]. apply in_map_iff in X. destruct X as (s & X & _). discriminate X. }
  pose proof (poly_columns (mean_ t) t o cycles HA) as F. rewrite MT in F at 2. fold L in F. set (D := design o (mean_ t) t (filter stays cycles) (flat_map (terms_of t) cycles)) in *.
  assert (CO : columns_ok D (List.length rows)). { intros c Hc. unfold D, design in Hc. apply in_app_iff in Hc. destruct Hc as [Hc|Hc]; [apply in_map_iff in Hc; destruct Hc as (k & <- & _); rewrite map_length; exact LT|rewrite <- LT; apply (cols_ok t cycles); exact Hc]. }
  pose proof (core_returns_rows D rows _ F CO) as CR. rewrite map_length in CR. split.
  - intros (ls & P). apply run_prints in P. destruct P as (q & L2 & EQ & ES). split; [exact L2|]. exists L. split; [exact ND|]. split; [exact HL|]. unfold fit_rows in EQ. fold t in EQ. destruct (regress erf tppf t _ _ _ _ _ _ _ _ _ _) as [g|] eqn:G in EQ; cbn [bind] in EQ; [|discriminate EQ].
    destruct (regress_inv _ _ _ _ _ _ _ _ G) as (f & st & EF & _). cbv zeta in EF. fold D in EF. rewrite LT in EF. destruct (core_rows D rows f _ EF F) as (PL & _). cbv zeta in PL. rewrite map_length in PL. split; [exact PL|]. apply (proj1 CR). exists f. exact EF.
  - intros (L2 & L' & ND' & HL' & LL & AP). assert (P : Permutation L' L) by (apply NoDup_Permutation; [exact ND'|exact ND|]; intros x; rewrite HL', HL; reflexivity).
    destruct (proj2 CR) as (f & EF); [split; [apply (apart_perm _ _ _ (Permutation_map _ P) AP)|rewrite <- (Permutation_length P); lia]|].
    destruct (regress_any erf tppf t (map row_value rows) o (filter stays cycles) (flat_map (terms_of t) cycles) f ltac:(lia)) as (g & G); [rewrite LT; exact EF|].
    assert (EQ : exists q, fit_rows erf tppf rows (Some o) None cycles = Ok q) by (unfold fit_rows; fold t; rewrite G; eexists; reflexivity). destruct EQ as (q & EQ).
    destruct (summary_known (Some o) None cycles q t (fit_count _ _ _ _ _ _ _ EQ) (in_order_known _ HA)) as (ls & ES). exists ls. apply run_prints. exists q. auto.
Qed.
Print Assumptions C112_returns.
Theorem C112_breakpoint_returns : forall erf tppf old rows order m cycles stream, in_order cycles -> distinct cycles -> increasing rows ->
  ((exists ls, prints (run_regress erf tppf old rows order (Some m) cycles stream) old stream ls) <->
   (2 <= List.length rows)%nat /\ exists x names, row_of_month rows m x /\ NoDup names /\ (forall s, In s names <-> periodic cycles s) /\ (3 + List.length names < List.length rows)%nat /\ apart rows (ramps (row_time x) names)) /\
  ((2 <= List.length rows)%nat -> (forall x, ~ row_of_month rows m x) -> r_res (run_regress erf tppf old rows order (Some m) cycles stream) = Err TypeError).
Proof.
  intros erf tppf old rows order m cycles stream HA HD HT. set (t := map row_time rows). assert (LT : List.length t = List.length rows) by apply map_length. set (N := flat_map labels_of cycles). assert (ND : NoDup N) by (apply rest_nodup; assumption).
  assert (COL : forall k, (k < List.length rows)%nat -> let D := pw_design t k (nth k t 0) (filter stays cycles) (flat_map (terms_of t) cycles) in Forall2 (column_is t) D (ramps (row_time (nth k rows row0)) N) /\
    ((exists f, fit_core D (List.length rows) (map row_value rows) (Scalar 0) false false = Ok f) <-> apart rows (ramps (row_time (nth k rows row0)) N) /\ List.length rows <> (3 + List.length N)%nat)).
  { intros k Hk D. pose proof (bent_columns t k cycles HT ltac:(lia) HA) as F. assert (TB : nth k t 0 = row_time (nth k rows row0)) by (unfold t; apply nth_map; exact Hk). rewrite TB in F at 2. fold N D in F. split; [exact F|]. rewrite <- (ramps_len (row_time (nth k rows row0)) N). apply core_returns_rows; [exact F|].
    intros c Hc. unfold D, pw_design in Hc. apply in_app_iff in Hc. rewrite <- LT. destruct Hc as [Hc|Hc]; [|apply (cols_ok t cycles); exact Hc]. destruct Hc as [<-|[<-|[<-|[]]]]; [apply map_length|reflexivity|apply tab_len]. }
  split; [split|].
  - intros (ls & P). apply run_prints in P. destruct P as (q & L2 & EQ & ES). split; [exact L2|]. unfold fit_rows in EQ. fold t in EQ. destruct (month_index (map row_month rows) m) as [|k [|k' l']] eqn:EM; [discriminate EQ| |discriminate EQ]. destruct (month_row rows m k EM) as (Hk & RM).
    destruct (piecewise erf tppf t _ _ _ _ _ _ _ _ _ _) as [g|] eqn:G in EQ; cbn [bind] in EQ; [|discriminate EQ]. destruct (piecewise_inv _ _ _ _ _ _ _ _ ltac:(rewrite LT; exact Hk) G) as (f & st & EF & _). cbv zeta in EF. rewrite LT in EF. destruct (COL k Hk) as (F & CR). cbv zeta in CR, F.
    exists (nth k rows row0), N. split; [exact RM|]. split; [exact ND|]. split; [intros s; apply periodic_labels|]. destruct (core_rows _ rows f _ EF F) as (PL & _). cbv zeta in PL. rewrite ramps_len in PL. split; [exact PL|]. apply (proj1 CR). exists f. exact EF.
  - intros (L2 & x & N' & RM & ND' & HN' & LL & AP). destruct (row_month_index _ _ _ RM) as (k & EM & EX). destruct (month_row rows m k EM) as (Hk & _). destruct (COL k Hk) as (F & CR). cbv zeta in CR, F. rewrite EX in CR.
    assert (P : Permutation N' N) by (apply NoDup_Permutation; [exact ND'|exact ND|]; intros y; rewrite HN'; unfold N; rewrite periodic_labels; reflexivity).
    destruct (proj2 CR) as (f & EF). { split; [|rewrite <- (Permutation_length P); lia]. apply (apart_perm rows (ramps (row_time x) N')); [|exact AP]. unfold ramps. do 3 (cbn [app]; apply perm_skip). apply Permutation_map. exact P. }
    destruct (piecewise_any erf tppf t (map row_value rows) k (filter stays cycles) (flat_map (terms_of t) cycles) f ltac:(lia) ltac:(lia)) as (g & G); [rewrite LT; exact EF|].
    assert (EQ : exists q, fit_rows erf tppf rows order (Some m) cycles = Ok q) by (unfold fit_rows; fold t; rewrite EM, G; eexists; reflexivity). destruct EQ as (q & EQ).
    destruct (summary_known order (Some m) cycles q t (fit_count _ _ _ _ _ _ _ EQ) (in_order_known _ HA)) as (ls & ES). exists ls. apply run_prints. exists q. auto.
  - intros L2 NR. unfold run_regress. destruct (Nat.ltb_spec (List.length rows) 2) as [L|L]; [lia|]. cbn [andb]. unfold fit_rows. destruct (month_index (map row_month rows) m) as [|k [|k' l']] eqn:EM; [reflexivity| |reflexivity]. exfalso. destruct (month_row rows m k EM) as (_ & RM). apply (NR _ RM).
Qed.
Print Assumptions C112_breakpoint_returns.
