(** C112: quick_mascon_regress.  Specification first (periods, labels of periodic terms, waves: PropTrendMap; bent: PropTrendMap3). *)
From Coq Require Import Reals Lra String List Permutation Sorted.
From Verif Require Import Base DestripeModel DestripeProofs LinAlg RegressModel RegressProofs PropRegress PropRegress2 PropPiecewise TsModel.
From Verif Require Import TrendMapModel PropTrendMap PropTrendMap2 PropTrendMap3 QuickModel.
Close Scope Z_scope.
Open Scope R_scope.

(** the run ended without an exception and printed the lines ls, to the standard output or to the file *)
Definition prints (x : run_result) (old : option (list text)) (stream : bool) (ls : list text) : Prop :=
  r_res x = Ok tt /\ r_file x = (if stream then old else Some ls) /\ r_out x = (if stream then ls else []).
(** the function of time whose coefficient a line of a polynomial fit shows; r: mean time *)
Definition shown (r : R) (l : label) (x : R) : R := match l with Poly k => (x - r) ^ k | Named s => meaning 0 s x | Bent => 0 end.
Definition mean_of_times (rows : list row) : R := Sum (map row_time rows) / INR (List.length rows).
(** sum of squared differences between the values of the file and a function of time *)
Definition misfit_to (rows : list row) (f : R -> R) : R := Sum (map (fun x => (row_value x - f (row_time x)) ^ 2) rows).
(** cov is the inverse of the matrix of sums of products of the functions fs at the times of the rows *)
Definition inverse_normal (rows : list row) (fs : list (R -> R)) (cov : nat -> nat -> R) : Prop := forall j k, (j < List.length fs)%nat -> (k < List.length fs)%nat ->
  rsum (List.length fs) (fun l => Sum (map (fun x => nth j fs (fun _ => 0) (row_time x) * nth l fs (fun _ => 0) (row_time x)) rows) * cov l k) = if (j =? k)%nat then 1 else 0.
(** the last lines, from the number of terms p and the misfit S *)
Definition closing (rows : list row) (p : nat) (S : R) : list text :=
  let n := INR (List.length rows) in let v := map row_value rows in let mean := Sum v / n in let total := Sum (map (fun y => (y - mean) ^ 2) v) in
  let loglik := - (n / 2) * (ln (2 * PI) + 1 - ln n + ln S) in
  [Dof (Z.of_nat (List.length rows) - Z.of_nat p); Stat "AIC" (-2 * loglik + 2 * (INR p + 1)); Stat "BIC" (-2 * loglik + ln n * (INR p + 1)); Stat "LOGLIK" loglik; Stat "MSE" (S / (n - INR p));
   Stat "NRMSE" (sqrt (S / (n - INR p)) / (rmax v - rmin v)); Stat "R2" (1 - S / total); Stat "R2Adj" (1 - S / total * ((n - 1) / (n - INR p)))].
Definition is_coef (x : text) : Prop := match x with Coef _ _ _ _ => True | _ => False end.
Definition is_closing (x : text) : Prop := match x with Dof _ | Stat _ _ => True | _ => False end.
(** no choice of coefficients except zero gives zero at all rows *)
Definition apart (rows : list row) (fs : list (R -> R)) : Prop := forall b, (forall x, In x rows -> mixture fs b (row_time x) = 0) -> forall k, (k < List.length fs)%nat -> b k = 0.
(** a period the program knows *)
Definition known (c : R) : Prop := c = 1 / 2 \/ c = 1 \/ exists nd, In nd alias_days /\ stands_for c (snd nd).
(** rows in order of time *)
Definition increasing (rows : list row) : Prop := StronglySorted Rlt (map row_time rows).

(** ** proofs *)
Lemma rsum_list {A} (f : A -> R) l d : Sum (map f l) = rsum (List.length l) (fun i => f (nth i l d)).
Proof. apply Sum_rsum. Qed.
Lemma mean_sum l : mean_ l = Sum l / INR (List.length l).
Proof. reflexivity. Qed.
Definition row0 : row := (0%Z, 0, 0).
(** rows as functions of an index *)
Definition idx (rows : list row) : list Z := map Z.of_nat (seq 0 (List.length rows)).
Definition at_row (rows : list row) (m : Z) : row := nth (Z.to_nat m) rows row0.
Lemma idx_map {B} (f : row -> B) rows : map (fun m => f (at_row rows m)) (idx rows) = map f rows.
Proof.
  unfold idx, at_row. rewrite map_map. rewrite (map_ext _ (fun k => f (nth k rows row0))) by (intros k; rewrite Nat2Z.id; reflexivity).
  apply nth_ext with (d := f (nth 0 rows row0)) (d' := f row0); [rewrite !map_length, seq_length; reflexivity|]. intros k Hk. rewrite map_length, seq_length in Hk. rewrite (map_nth (fun k => f (nth k rows row0))), (map_nth f), seq_nth by exact Hk. reflexivity.
Qed.
Lemma idx_len rows : List.length (idx rows) = List.length rows.
Proof. unfold idx. rewrite map_length, seq_length. reflexivity. Qed.
Lemma core_rows D rows f fs : fit_core D (List.length rows) (map row_value rows) (Scalar 0) false false = Ok f -> Forall2 (column_is (map row_time rows)) D fs ->
  let p := List.length fs in let n := INR (List.length rows) in let beta := at_ (f_beta f) in let S b := misfit_to rows (mixture fs b) in
  (p < List.length rows)%nat /\ List.length (f_beta f) = p /\ (forall b, S beta <= S b) /\ (forall b, S b = S beta -> forall k, (k < p)%nat -> b k = beta k) /\ apart rows fs /\ inverse_normal rows fs (f_cov f) /\
  mse f = S beta / (n - INR p) /\ f_dof f = (Z.of_nat (List.length rows) - Z.of_nat p)%Z /\ criteria (mkfitted [] [] [] (f_dof f) (stats_of f (mse f) (sqrt (mse f) / (rmax (map row_value rows) - rmin (map row_value rows))))) = closing rows p (S beta).
Proof.
  intros E F. cbv zeta. destruct (core_ok _ _ _ _ _ _ _ E) as (s & C & (R2 & R2A) & (LK & AI & BI)). cbv zeta in R2, R2A, LK, AI, BI.
  set (tm := fun m => row_time (at_row rows m)). set (g := fun m => row_value (at_row rows m)).
  assert (ET : map tm (idx rows) = map row_time rows) by apply idx_map. assert (EG : map g (idx rows) = map row_value rows) by apply idx_map.
  assert (C' : core_facts D (List.length (idx rows)) (map g (idx rows)) (Scalar 0) false f s) by (rewrite idx_len, EG; exact C). rewrite <- ET in F.
  pose proof (core_functions D tm g (idx rows) f s fs _ C' F) as CF. cbv zeta in CF. rewrite idx_len in CF. destruct CF as (PL & LB & RS & MIN & UNI & IND & INV). pose proof (F2_len _ _ _ F) as LF.
  assert (SQ : forall b, Sum (map (fun m => (g m - mixture fs b (tm m)) ^ 2) (idx rows)) = misfit_to rows (mixture fs b)) by (intros b; unfold misfit_to, g, tm; f_equal; exact (idx_map (fun x => (row_value x - mixture fs b (row_time x)) ^ 2) rows)).
  rewrite SQ in RS. assert (DF : f_dof f = (Z.of_nat (List.length rows) - Z.of_nat (List.length fs))%Z) by (destruct C as (_ & _ & _ & _ & X & _); rewrite X, LF; reflexivity).
  assert (DN : IZR (f_dof f) = INR (List.length rows) - INR (List.length fs)) by (rewrite DF, minus_IZR, <- !INR_IZR_INZ; reflexivity).
  assert (ERs : f_residual f = tab (List.length rows) (fun i => at_ (map row_value rows) i - at_ (f_model f) i)) by apply C.
  assert (ME : mse f = misfit_to rows (mixture fs (at_ (f_beta f))) / (INR (List.length rows) - INR (List.length fs))).
  { unfold mse. rewrite DN. f_equal. rewrite <- RS. assert (X : forall l, sum_ (map (fun r => r * r) l) = rsum (List.length l) (fun i => at_ l i ^ 2)). { induction l as [|y l IH]; [reflexivity|]. cbn [map sum_ fold_right List.length]. rewrite rsum_head. unfold sum_ in IH. rewrite IH. unfold at_. cbn [nth]. ring_simplify. f_equal. }
    rewrite X. rewrite ERs at 1. rewrite tab_len. reflexivity. }
  assert (W : rsum (List.length rows) (fun i => f_w f i * at_ (f_residual f) i ^ 2) = misfit_to rows (mixture fs (at_ (f_beta f)))).
  { rewrite <- RS. apply rsum_ext. intros i Hi. destruct C as (_ & _ & _ & _ & _ & _ & _ & _ & SW & W0 & _). destruct (SW i Hi) as (_ & ->). rewrite (proj1 (W0 eq_refl)). ring. }
  assert (SSE : rsum (List.length rows) (fun i => at_ (f_residual f) i * at_ (f_residual f) i) = misfit_to rows (mixture fs (at_ (f_beta f)))) by (rewrite <- RS; apply rsum_ext; intros; ring).
  set (SS := misfit_to rows (mixture fs (at_ (f_beta f)))) in *.
  assert (TOT : rsum (List.length rows) (fun i => (at_ (map row_value rows) i - mean_ (map row_value rows)) * (at_ (map row_value rows) i - mean_ (map row_value rows))) = Sum (map (fun y => (y - Sum (map row_value rows) / INR (List.length rows)) ^ 2) (map row_value rows))).
  { rewrite (Sum_rsum _ (map row_value rows) 0), map_length. apply rsum_ext. intros i _. rewrite mean_sum, map_length. unfold at_. ring. }
  rewrite SSE, TOT in R2, R2A. rewrite W, ln_1 in LK. rewrite LF in AI, BI. rewrite DN in R2A.
  split; [exact PL|]. split; [exact LB|]. split; [intros b; unfold SS; rewrite <- !SQ; apply MIN|]. split; [intros b Hb; apply UNI; rewrite !SQ; exact Hb|]. split.
  { intros b Hb. apply IND. intros m Hm. unfold tm. apply Hb. unfold idx in Hm. apply in_map_iff in Hm. destruct Hm as (k & <- & Hk). apply in_seq in Hk. unfold at_row. rewrite Nat2Z.id. apply nth_In. lia. }
  split. { intros j k Hj Hk. rewrite <- (INV j k Hj Hk). apply rsum_ext. intros l Hl. f_equal. unfold tm. rewrite (idx_map (fun x => nth j fs (fun _ => 0) (row_time x) * nth l fs (fun _ => 0) (row_time x)) rows). reflexivity. }
  split; [exact ME|]. split; [exact DF|]. unfold criteria, stats_of, closing. cbn [q_dof q_stats map fst snd]. rewrite AI, BI, R2, R2A, LK, ME, DF.
  repeat (f_equal; try lra).
Qed.

(** the fits, with the defaults of the program *)
Lemma regress_inv erf tppf t d o cs Ts q : regress erf tppf t d o cs Ts (Scalar 0) false RelAll 0 (95 / 100) false = Ok q ->
  let D := design o (mean_ t) t cs Ts in exists f st, fit_core D (List.length t) d (Scalar 0) false false = Ok f /\ List.length t <> 1%nat /\ st = tab (List.length D) (fun j => sqrt (mse f * f_cov f j j)) /\
  r_fit q = f /\ r_std_err q = Some st /\ r_error q = map (fun s => tppf (975 / 1000) (f_dof f) * s) st /\ r_mse q = mse f /\ r_nrmse q = Some (sqrt (mse f) / (rmax d - rmin d)).
Proof.
  cbv zeta. unfold regress. destruct (Nat.eqb_spec (List.length t) 1); [discriminate|]. cbn [t_rel bind]. destruct (fit_core _ _ _ _ _ _) as [f|]; cbn [bind]; [|discriminate]. cbn [is_scalar]. destruct (Req_EM_T 0 0); [|contradiction].
  intros E. assert (X : forall a b : regression, Ok a = Ok b -> b = a) by congruence. apply X in E. rewrite E. exists f. eexists. split; [reflexivity|]. split; [assumption|]. split; [reflexivity|]. cbn [r_fit r_std_err r_error r_mse r_nrmse].
  repeat split. apply map_ext. intros s. f_equal. unfold t_star. destruct (Req_EM_T 0 0); [|contradiction]. destruct (Req_EM_T (95 / 100) 0); [exfalso; lra|]. f_equal. field.
Qed.
Lemma piecewise_inv erf tppf t d k cs Ts q : (k < List.length t)%nat -> piecewise erf tppf t d (Some (Z.of_nat k)) None cs Ts (Scalar 0) false 0 (95 / 100) false = Ok q ->
  let D := pw_design t k (nth k t 0) cs Ts in exists f st, fit_core D (List.length t) d (Scalar 0) false false = Ok f /\ List.length t <> 1%nat /\ st = tab (List.length D) (fun j => sqrt (mse f * f_cov f j j)) /\
  p_fit q = f /\ p_beta q = upd (f_beta f) 2 (at_ (f_beta f) 1 + at_ (f_beta f) 2) /\ p_std_err q = Some (comb2 st) /\ p_error q = comb2 (map (fun s => tppf (975 / 1000) (f_dof f) * s) st) /\ p_mse q = mse f /\ p_nrmse q = Some (sqrt (mse f) / (rmax d - rmin d)).
Proof.
  intros Hk. cbv zeta. unfold piecewise. destruct (Nat.eqb_spec (List.length t) 1); [discriminate|].
  assert (EB : RegressModel.breakpoint t (Some (Z.of_nat k)) None = Ok (k, nth k t 0)).
  { pose proof (break_at (fun z => nth (Z.to_nat z) t 0) (map Z.of_nat (seq 0 (List.length t))) k) as B. rewrite map_map, map_length, seq_length in B. specialize (B Hk).
    replace (map (fun x => nth (Z.to_nat (Z.of_nat x)) t 0) (seq 0 (List.length t))) with t in B.
    2:{ apply nth_ext with (d := 0) (d' := nth (Z.to_nat (Z.of_nat 0)) t 0); [rewrite map_length, seq_length; reflexivity|]. intros i Hi. rewrite (map_nth (fun x => nth (Z.to_nat (Z.of_nat x)) t 0)), seq_nth by exact Hi. rewrite Nat2Z.id. reflexivity. }
    rewrite B. rewrite (nth_map Z.of_nat _ k 0%nat) by (rewrite seq_length; exact Hk). rewrite seq_nth, Nat2Z.id by exact Hk. reflexivity. }
  rewrite EB. cbn [bind]. destruct (fit_core _ _ _ _ _ _) as [f|]; cbn [bind]; [|discriminate]. cbn [is_scalar]. destruct (Req_EM_T 0 0); [|contradiction].
  intros E. assert (X : forall a b : pw_result, Ok a = Ok b -> b = a) by congruence. apply X in E. rewrite E. exists f. eexists. split; [reflexivity|]. split; [assumption|]. split; [reflexivity|]. cbn [p_fit p_beta p_std_err p_error p_mse p_nrmse].
  repeat split. f_equal. apply map_ext. intros s. f_equal. unfold t_star. destruct (Req_EM_T 0 0); [|contradiction]. destruct (Req_EM_T (95 / 100) 0); [exfalso; lra|]. f_equal. field.
Qed.
(** columns and labels *)
Lemma cols_count t c : (List.length (labels_of c) = (if is_half c then 2 else if is_one c then 2 else 0) + 4 * List.length (tides_of c) /\
  List.length (terms_of t c) = 4 * List.length (tides_of c) /\ List.length (amps_of c) + List.length (amps_of c) = List.length (labels_of c))%nat.
Proof.
  unfold labels_of, terms_of, amps_of. rewrite !app_length.
  assert (A : forall l : list (string * R), List.length (flat_map (fun np => let n := fst np in [n ++ "SGRC"; n ++ "CGRC"; n ++ "SGFO"; n ++ "CGFO"]%string) l) = (4 * List.length l)%nat /\ List.length (flat_map (fun np => aliasing_terms t (snd np)) l) = (4 * List.length l)%nat /\
    List.length (flat_map (fun np => let n := fst np in [n ++ "GRC"; n ++ "GFO"]%string) l) = (2 * List.length l)%nat).
  { induction l as [|x l (I1 & I2 & I3)]; [repeat split|]. cbn [flat_map List.length]. rewrite !app_length. cbv zeta in *. rewrite I1, I2, I3. unfold aliasing_terms. cbn [List.length]. lia. }
  cbv zeta in A |- *. destruct (A (tides_of c)) as (-> & -> & ->). destruct (is_half c), (is_one c); cbn [List.length]; repeat split; lia.
Qed.
Lemma counts t cycles : let cols := (List.length (cycle_cols t (filter stays cycles)) + List.length (flat_map (terms_of t) cycles))%nat in
  (List.length (flat_map labels_of cycles) <= cols)%nat /\ (List.length (flat_map labels_of cycles) = cols <-> forall c, In c cycles -> known c).
Proof.
  cbv zeta. unfold cycle_cols. induction cycles as [|c l (IH1 & IH2)]; [split; [apply Nat.le_refl|split; [intros _ c []|reflexivity]]|]. cbn [filter flat_map]. rewrite !app_length. destruct (cols_count t c) as (L1 & L2 & _). rewrite L1.
  assert (K : known c <-> (if is_half c then 2 else if is_one c then 2 else 0)%nat = (if stays c then 2 else 0)%nat).
  { unfold known, stays, is_half, is_one. destruct (Req_EM_T c (1 / 2)) as [->|N1]; [rewrite (tides_none (1 / 2)) by auto; tauto|]. destruct (Req_EM_T c 1) as [->|N2]; [rewrite (tides_none 1) by auto; tauto|].
    destruct (tides_of c) as [|nd l0] eqn:T; split; intros H; try reflexivity; try discriminate.
    - exfalso. destruct H as [|[|(nd & H1 & H2)]]; [contradiction|contradiction|]. rewrite (tides_one c nd H1 H2) in T. discriminate.
    - right; right. exists nd. apply tides_in. rewrite T. left; reflexivity. }
  assert (S1 : ((if is_half c then 2 else if is_one c then 2 else 0) <= (if stays c then 2 else 0))%nat).
  { unfold stays, is_half, is_one. destruct (Req_EM_T c (1 / 2)) as [->|N1]; [rewrite (tides_none (1 / 2)) by auto; lia|]. destruct (Req_EM_T c 1) as [->|N2]; [rewrite (tides_none 1) by auto; lia|]. lia. }
  assert (FL : List.length (flat_map (fun c : R => [map (fun x => sin (2 * PI * x / c)) t; map (fun x => cos (2 * PI * x / c)) t]) (if stays c then c :: filter stays l else filter stays l)) =
    ((if stays c then 2 else 0) + List.length (flat_map (fun c : R => [map (fun x => sin (2 * PI * x / c)) t; map (fun x => cos (2 * PI * x / c)) t]) (filter stays l)))%nat) by (destruct (stays c); reflexivity).
  rewrite FL, L2. split; [destruct (stays c); lia|]. split.
  - intros H. assert (X : (if is_half c then 2 else if is_one c then 2 else 0)%nat = (if stays c then 2 else 0)%nat) by (destruct (stays c); lia). intros c' [<-|Hc']; [apply K; exact X|]. apply (proj1 IH2); [destruct (stays c); lia|exact Hc'].
  - intros H. pose proof (proj1 K (H c (or_introl eq_refl))) as X. pose proof (proj2 IH2 (fun c' Hc' => H c' (or_intror Hc'))) as Y. destruct (stays c); lia.
Qed.
Lemma in_order_known cycles : in_order cycles -> forall c, In c cycles -> known c.
Proof. intros (reg & al & -> & HR & HA) c Hc. apply in_app_iff in Hc. destruct Hc as [Hc|Hc]; [destruct (HR c Hc); [left|right; left]; assumption|right; right; apply HA; exact Hc]. Qed.
(** ** what a finished run printed *)
Definition labels_all (order : option nat) (bp : option Z) (cycles : list R) : list label := (first_labels order bp ++ map Named (flat_map labels_of cycles))%list.
Lemma run_prints erf tppf old rows order bp cycles stream ls : prints (run_regress erf tppf old rows order bp cycles stream) old stream ls <->
  exists q, (2 <= List.length rows)%nat /\ fit_rows erf tppf rows order bp cycles = Ok q /\ summary order bp cycles q = (ls, Ok tt).
Proof.
  unfold run_regress, prints. destruct (Nat.ltb_spec (List.length rows) 2) as [L|L]; cbn [andb].
  { split; [|intros (q & H & _); lia]. intros (H & _). destruct bp, order; discriminate H. }
  split.
  - intros H. assert (G : (exists q, fit_rows erf tppf rows order bp cycles = Ok q /\ summary order bp cycles q = (ls, Ok tt)) -> exists q, (2 <= List.length rows)%nat /\ fit_rows erf tppf rows order bp cycles = Ok q /\ summary order bp cycles q = (ls, Ok tt)) by (intros (q & H1 & H2); exists q; auto).
    apply G. clear G. destruct (fit_rows erf tppf rows order bp cycles) as [q|e]; [|destruct H as (H & _); destruct bp, order; discriminate H].
    exists q. split; [reflexivity|]. destruct (summary order bp cycles q) as (ls' & r). destruct bp as [b|]; [|destruct order as [o|]; [|destruct H as (H & _); discriminate H]]; destruct stream; cbn [r_res r_file r_out] in H; destruct H as (-> & H1 & H2); congruence.
  - intros (q & _ & E1 & E2). destruct bp as [b|]; [|destruct order as [o|]; [|unfold fit_rows in E1; discriminate E1]]; rewrite E1, E2; destruct stream; cbn [r_res r_file r_out]; auto.
Qed.
Lemma summary_ok order bp cycles q ls : summary order bp cycles q = (ls, Ok tt) -> let labels := labels_all order bp cycles in let p := List.length (q_beta q) in (p <= List.length labels)%nat /\
  ls = Formula labels :: (map (fun k => Coef (nth k labels Bent) (at_ (q_beta q) k) (at_ (q_std q) k) (at_ (q_err q) k)) (seq 0 p) ++ wave_lines (List.length (first_labels order bp)) (flat_map amps_of cycles) q ++ criteria q)%list.
Proof.
  cbv zeta. unfold summary, coef_lines. fold (labels_all order bp cycles). destruct (Nat.leb_spec (List.length (q_beta q)) (List.length (labels_all order bp cycles))) as [L|L]; [|discriminate]. intros E. split; [exact L|].
  assert (X : forall (a b : list text), (a, Ok tt) = (b, Ok tt) -> b = a) by congruence. apply X in E. rewrite E, Nat.min_r by exact L. reflexivity.
Qed.
Lemma design_count o r t cs Ts : List.length (design o r t cs Ts) = (o + 1 + (List.length (cycle_cols t cs) + List.length Ts))%nat.
Proof. unfold design. rewrite !app_length, map_length, seq_length. lia. Qed.
Lemma labels_count o cycles : List.length (labels_all (Some o) None cycles) = (o + 1 + List.length (flat_map labels_of cycles))%nat.
Proof. unfold labels_all, first_labels. rewrite app_length, !map_length, seq_length. reflexivity. Qed.
Lemma poly_columns r t o cycles : in_order cycles -> Forall2 (column_is t) (design o r t (filter stays cycles) (flat_map (terms_of t) cycles)) (map (shown r) (labels_all (Some o) None cycles)).
Proof.
  intros H. unfold design, labels_all, first_labels. rewrite map_app. apply Forall2_app.
  - rewrite map_map. generalize (seq 0 (o + 1)). induction l as [|k l IH]; cbn [map]; constructor; [|exact IH]. intros i Hi. rewrite (nth_map _ t i 0) by exact Hi. reflexivity.
  - rewrite map_map. exact (rest_columns t cycles H).
Qed.
Lemma named_not_coef base amps q x : In x (wave_lines base amps q ++ criteria q) -> ~ is_coef x.
Proof.
  intros H. apply in_app_iff in H. destruct H as [H|[<-|H]]; [|intros []|].
  - unfold wave_lines in H. apply in_app_iff in H. destruct H as [H|H]; apply in_map_iff in H; destruct H as (k & <- & _); intros [].
  - apply in_map_iff in H. destruct H as (k & <- & _). intros [].
Qed.
Lemma wave_not_closing base amps q x : In x (wave_lines base amps q) -> ~ is_closing x.
Proof. intros H. unfold wave_lines in H. apply in_app_iff in H. destruct H as [H|H]; apply in_map_iff in H; destruct H as (k & <- & _); intros []. Qed.
Lemma apart_nodup {A} rows (f : A -> R -> R) L (d : A) : apart rows (map f L) -> NoDup L.
Proof.
  intros IND. apply (NoDup_nth L d). intros a b Ha Hb E. destruct (Nat.eq_dec a b) as [|N]; [assumption|]. exfalso.
  assert (Z : delta a a - delta a b = 0); [|unfold delta in Z; rewrite Nat.eqb_refl in Z; destruct (Nat.eqb_spec a b); [lia|lra]]. refine (IND (fun k => delta k a - delta k b) _ a _); [|rewrite map_length; exact Ha]. intros x _. rewrite mixture_two by (rewrite map_length; assumption).
  rewrite !(nth_map f L _ d) by assumption. rewrite E. ring.
Qed.
(** ** C112: a polynomial of any degree with periodic terms *)
Theorem C112_fit : forall erf tppf old rows o cycles stream ls, in_order cycles -> prints (run_regress erf tppf old rows (Some o) None cycles stream) old stream ls ->
  exists labels b cov se waves, let p := List.length labels in let fs := map (shown (mean_of_times rows)) labels in let S b' := misfit_to rows (mixture fs b') in
  NoDup labels /\ (forall l, In l labels <-> (exists k, l = Poly k /\ (k <= o)%nat) \/ exists s, l = Named s /\ periodic cycles s) /\ (p < List.length rows)%nat /\
  ls = (Formula labels :: map (fun k => Coef (nth k labels Bent) (b k) (se k) (tppf (975 / 1000) (Z.of_nat (List.length rows) - Z.of_nat p)%Z * se k)) (seq 0 p) ++ waves ++ closing rows p (S b))%list /\
  (forall x, In x waves -> ~ is_coef x /\ ~ is_closing x) /\
  (forall b', S b <= S b') /\ (forall b', S b' = S b -> forall k, (k < p)%nat -> b' k = b k) /\
  inverse_normal rows fs cov /\ (forall k, (k < p)%nat -> se k = sqrt (S b / (INR (List.length rows) - INR p) * cov k k)).
Proof.
  intros erf tppf old rows o cycles stream ls HA P. apply run_prints in P. destruct P as (q & L2 & EQ & ES). destruct (summary_ok _ _ _ _ _ ES) as (LB & EL). cbv zeta in LB, EL. unfold fit_rows in EQ.
  set (t := map row_time rows) in *. set (d := map row_value rows) in *. destruct (regress erf tppf t d o _ _ _ _ _ _ _ _) as [g|] eqn:G in EQ; cbn [bind] in EQ; [|discriminate EQ]. assert (X : forall a b : fitted, Ok a = Ok b -> b = a) by congruence. apply X in EQ. clear X.
  destruct (regress_inv _ _ _ _ _ _ _ _ G) as (f & st & EF & _ & Est & E1 & E2 & E3 & E4 & E5). cbv zeta in EF, Est. set (D := design o (mean_ t) t (filter stays cycles) (flat_map (terms_of t) cycles)) in *.
  assert (MT : mean_ t = mean_of_times rows) by (unfold t; rewrite mean_sum, map_length; reflexivity). assert (LT : List.length t = List.length rows) by apply map_length. rewrite LT in EF.
  pose proof (poly_columns (mean_ t) t o cycles HA) as F. fold D in F. rewrite MT in F. destruct (core_rows D rows f _ EF F) as (PL & LBt & MIN & UNI & IND & INV & ME & DF & CR). cbv zeta in *. rewrite map_length in *.
  set (labels := labels_all (Some o) None cycles) in *. exists labels, (at_ (f_beta f)), (f_cov f), (fun k => sqrt (mse f * f_cov f k k)), (wave_lines (List.length (first_labels (Some o) None)) (flat_map amps_of cycles) q). cbv zeta.
  assert (LD : List.length D = List.length labels) by (rewrite (F2_len _ _ _ F), map_length; reflexivity).
  split; [apply (apart_nodup rows (shown (mean_of_times rows)) labels Bent IND)|]. split.
  { intros l. unfold labels, labels_all, first_labels. rewrite in_app_iff, !in_map_iff. split.
    - intros [(k & <- & Hk)|(s & <- & Hs)]; [left; apply in_seq in Hk; exists k; split; [reflexivity|lia]|right; exists s; split; [reflexivity|apply periodic_labels; exact Hs]].
    - intros [(k & -> & Hk)|(s & -> & Hs)]; [left; exists k; split; [reflexivity|apply in_seq; lia]|right; exists s; split; [reflexivity|apply periodic_labels; exact Hs]]. }
  split; [exact PL|]. assert (QB : q_beta q = f_beta f /\ q_std q = st /\ q_err q = map (fun s => tppf (975 / 1000) (f_dof f) * s) st /\ criteria q = closing rows (List.length labels) (misfit_to rows (mixture (map (shown (mean_of_times rows)) labels) (at_ (f_beta f))))).
  { rewrite EQ. cbn [q_beta q_std q_err]. rewrite E1, E2, E3, E4, E5. repeat split. rewrite <- CR. reflexivity. }
  destruct QB as (B1 & B2 & B3 & B4). split.
  { rewrite EL, B4, B1, LBt. f_equal. f_equal. apply map_ext_in. intros k Hk. apply in_seq in Hk. rewrite B2, B3, Est. rewrite at_map by (rewrite tab_len; lia). rewrite tab_at by lia. rewrite DF. reflexivity. }
  split. { intros x Hx. split; [apply (named_not_coef (List.length (first_labels (Some o) None)) (flat_map amps_of cycles) q); apply in_app_iff; left; exact Hx|apply (wave_not_closing _ _ _ _ Hx)]. }
  split; [exact MIN|]. split; [exact UNI|]. split; [exact INV|]. intros k _. rewrite ME. reflexivity.
Qed.
Print Assumptions C112_fit.
