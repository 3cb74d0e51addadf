(** C105: piecewise_grace_maps.  Specification first (labels, functions, files: PropTrendMap). *)
From Coq Require Import Reals Lra String List Permutation Sorted.
From Verif Require Import Base DestripeModel DestripeProofs LinAlg RegressModel RegressProofs PropRegress PropRegress2 PropPiecewise TsModel.
From Verif Require PropSlr PropSmooth SpatialModel SpatialSpec Arr HarmModel.
From Verif Require Import TrendMapModel PropTrendMap PropTrendMap2.
Import SpatialModel(sp, sdata, smask, serr, slon, slat, stime, smonth, sfill, mksp, sfrom_list). Import SpatialSpec(seen, single_grid).
Import Arr(rows, cols, get). Import HarmModel(TArr, TScalar).
Close Scope Z_scope.
Open Scope R_scope.

(** two straight lines that meet at time tb: slope b1 before, b2 after; b0: the first line at time 0 *)
Definition bent (tb b0 b1 b2 x : R) : R := if Rlt_dec x tb then b0 + b1 * x else b0 + b1 * tb + b2 * (x - tb).
(** the seasonal and aliasing labels that a list of periods asks for *)
Definition periodic (CYCLES : list R) (l : string) : Prop :=
  (In (1 / 2) CYCLES /\ In l ["SS"; "SC"]%string) \/ (In 1 CYCLES /\ In l ["AS"; "AC"]%string) \/
  exists c nd, In c CYCLES /\ In nd alias_days /\ stands_for c (snd nd) /\ In l [fst nd ++ "SGRC"; fst nd ++ "CGRC"; fst nd ++ "SGFO"; fst nd ++ "CGFO"]%string.
Definition bent_squares (tb : R) (labels : list string) (months : list Z) (tm g : Z -> R) (b0 b1 b2 : R) (c : string -> R) : R :=
  Sum (map (fun m => (g m - (bent tb b0 b1 b2 (tm m) + combined 0 labels c (tm m))) ^ 2) months).
(** error of the file with a label and its months *)
Definition file_error_of (out : list omap) (l : string) (a b : Z) (i j : nat) (e : R) : Prop := exists f g, In f out /\ o_name f = l /\ o_first f = a /\ o_last f = b /\ o_error f = Some g /\ g i j = e.
(** the functions of the fit: constant, line, ramp from tb on, periodic ones *)
Definition ramps (tb : R) (labels : list string) : list (R -> R) := ((fun _ => 1) :: (fun x => x) :: (fun x => Rmax 0 (x - tb)) :: map (meaning 0) labels).

(** ** proofs *)
Lemma bent_ramp tb b0 b1 b2 x : bent tb b0 b1 b2 x = b0 * 1 + b1 * x + (b2 - b1) * Rmax 0 (x - tb).
Proof. unfold bent. destruct (Rlt_dec x tb); [rewrite Rmax_left by lra; ring|rewrite Rmax_right by lra; ring]. Qed.
Definition coefs4 (b0 b1 d : R) (L : list string) (c : string -> R) (k : nat) : R := match k with 0 => b0 | 1 => b1 | 2 => d | S (S (S k)) => c (nth k L EmptyString) end%nat.
Lemma bent_mixture tb labels b0 b1 b2 c x : bent tb b0 b1 b2 x + combined 0 labels c x = mixture (ramps tb labels) (coefs4 b0 b1 (b2 - b1) labels c) x.
Proof.
  rewrite bent_ramp, combined_mixture. unfold mixture, ramps. cbn [List.length]. rewrite !rsum_head. cbn [nth coefs4]. rewrite map_length. lra.
Qed.
Lemma rest_columns t CYCLES : in_order CYCLES -> Forall2 (column_is t) (cycle_cols t (filter stays CYCLES) ++ flat_map (terms_of t) CYCLES) (map (meaning 0) (flat_map labels_of CYCLES)).
Proof. intros H. apply shows_columns. apply rest_shows. exact H. Qed.
Lemma periodic_labels CYCLES l : In l (flat_map labels_of CYCLES) <-> periodic CYCLES l.
Proof.
  unfold periodic. rewrite in_flat_map. split.
  - intros (c & Hc & Hl). unfold labels_of in Hl. apply in_app_iff in Hl. destruct Hl as [Hl|Hl].
    + unfold is_half, is_one in Hl. destruct (Req_EM_T c (1 / 2)) as [->|]; [left; auto|]. destruct (Req_EM_T c 1) as [->|]; [right; left; auto|destruct Hl].
    + apply in_flat_map in Hl. destruct Hl as (nd & Hn & Hl). apply tides_in in Hn. right; right. exists c, nd. tauto.
  - intros [(Hc & Hl)|[(Hc & Hl)|(c & nd & Hc & Hn & Hs & Hl)]].
    + exists (1 / 2). split; [exact Hc|]. unfold labels_of, is_half. destruct (Req_EM_T (1 / 2) (1 / 2)); [|contradiction]. apply in_app_iff. left; exact Hl.
    + exists 1. split; [exact Hc|]. unfold labels_of, is_half, is_one. destruct (Req_EM_T 1 (1 / 2)); [exfalso; lra|]. destruct (Req_EM_T 1 1); [|contradiction]. apply in_app_iff. left; exact Hl.
    + exists c. split; [exact Hc|]. unfold labels_of. apply in_app_iff. right. apply in_flat_map. exists nd. split; [apply tides_in; auto|exact Hl].
Qed.
(** least squares with the columns of a list of functions *)
Lemma core_functions D (tm g : Z -> R) months f s fs err : core_facts D (List.length months) (map g months) err false f s -> Forall2 (column_is (map tm months)) D fs ->
  let p := List.length fs in let SQ b := Sum (map (fun m => (g m - mixture fs b (tm m)) ^ 2) months) in let beta := at_ (f_beta f) in
  (p < List.length months)%nat /\ List.length (f_beta f) = p /\ rsum (List.length months) (fun i => at_ (f_residual f) i ^ 2) = SQ beta /\ (forall b, SQ beta <= SQ b) /\ (forall b, SQ b = SQ beta -> forall k, (k < p)%nat -> b k = beta k) /\
  (forall b, (forall m, In m months -> mixture fs b (tm m) = 0) -> forall k, (k < p)%nat -> b k = 0) /\
  (forall j k, (j < p)%nat -> (k < p)%nat -> rsum p (fun l => Sum (map (fun m => nth j fs (fun _ => 0) (tm m) * nth l fs (fun _ => 0) (tm m)) months) * f_cov f l k) = if (j =? k)%nat then 1 else 0).
Proof.
  intros C F. cbv zeta. pose proof (core_pythagoras _ _ _ _ _ _ _ C) as PY. pose proof (core_independent _ _ _ _ _ _ _ C) as ID. destruct C as (_ & _ & NP & _ & _ & LB & EM & ER & W & W0 & _ & _ & G). destruct (W0 eq_refl) as (S1 & _). clear W0.
  set (n := List.length months) in *. pose proof (F2_len _ _ _ F) as LF. rewrite LF in *. set (p := List.length fs) in *. assert (LT : List.length (map tm months) = n) by apply map_length.
  assert (CO : forall k i, (k < p)%nat -> (i < n)%nat -> col D k i = nth k fs (fun _ => 0) (tm (nth i months 0%Z))).
  { intros k i Hk Hi. unfold col, at_. rewrite (F2_nth _ _ _ [] (fun _ => 0) k F) by (rewrite ?LF, ?LT; assumption). f_equal. apply nth_map. exact Hi. }
  assert (CM : forall b i, (i < n)%nat -> comb p (col D) b i = mixture fs b (tm (nth i months 0%Z))) by (intros b i Hi; unfold comb, mixture; apply rsum_ext; intros k Hk; rewrite CO by assumption; reflexivity).
  assert (SR : forall b, Sum (map (fun m => (g m - mixture fs b (tm m)) ^ 2) months) = rsum n (fun i => f_w f i * (at_ (map g months) i - comb p (col D) b i) ^ 2)).
  { intros b. rewrite (Sum_rsum _ months 0%Z). apply rsum_ext. intros i Hi. destruct (W i Hi) as (_ & ->). rewrite S1, CM by exact Hi. unfold at_. rewrite (nth_map g months i 0%Z) by exact Hi. ring. }
  assert (MO : forall i, (i < n)%nat -> at_ (f_model f) i = comb p (col D) (at_ (f_beta f)) i) by (intros i Hi; rewrite EM, tab_at by exact Hi; reflexivity).
  assert (SB : Sum (map (fun m => (g m - mixture fs (at_ (f_beta f)) (tm m)) ^ 2) months) = rsum n (fun i => f_w f i * (at_ (map g months) i - at_ (f_model f) i) ^ 2)).
  { rewrite SR. apply rsum_ext. intros i Hi. rewrite MO by exact Hi. reflexivity. }
  assert (NN : forall b i, (i < n)%nat -> 0 <= f_w f i * (at_ (f_model f) i - comb p (col D) b i) ^ 2) by (intros b i Hi; destruct (W i Hi) as (_ & ->); rewrite S1; pose proof (pow2_ge_0 (at_ (f_model f) i - comb p (col D) b i)); nra).
  assert (IND : forall b, (forall m, In m months -> mixture fs b (tm m) = 0) -> forall k, (k < p)%nat -> b k = 0) by (intros b Hb; apply (ID b); intros i Hi; rewrite CM by exact Hi; apply Hb; apply nth_In; exact Hi).
  split. { pose proof (independent_le _ _ _ ID). lia. }
  split; [exact LB|]. split. { rewrite SB. apply rsum_ext. intros i Hi. rewrite ER, tab_at by exact Hi. destruct (W i Hi) as (_ & ->). rewrite S1. ring. }
  split; [intros b; rewrite SB, SR, PY; pose proof (rsum_nonneg n _ (NN b)); lra|]. split; [|split; [exact IND|]].
  - intros b Hb k Hk. rewrite SB, SR, PY in Hb. assert (Z : forall i, (i < n)%nat -> comb p (col D) (fun k => b k - at_ (f_beta f) k) i = 0).
    { intros i Hi. rewrite comb_sub. pose proof (rsum_pos_term n _ i (NN b) Hi) as X. cbv beta in X. destruct (W i Hi) as (_ & W2). rewrite W2, S1 in X. pose proof (pow2_ge_0 (at_ (f_model f) i - comb p (col D) b i)) as Y.
      assert (V : (at_ (f_model f) i - comb p (col D) b i) ^ 2 = 0) by nra. apply Rsqr_0_uniq. rewrite Rsqr_pow2. rewrite <- V, MO by exact Hi. ring. }
    specialize (ID (fun k => b k - at_ (f_beta f) k) Z k Hk). cbv beta in ID. lra.
  - intros j k Hj Hk. fold (delta j k). rewrite <- (G j k Hj Hk). unfold mmul. apply rsum_ext. intros l Hl. f_equal. unfold gram, dot. rewrite (Sum_rsum _ months 0%Z). apply rsum_ext. intros i Hi. rewrite !S1, !CO by assumption. ring.
Qed.
Lemma index_single ms k : NoDup ms -> (k < List.length ms)%nat -> month_index ms (nth k ms 0%Z) = [k].
Proof.
  intros ND Hk. unfold month_index. assert (A : forall x, In x (filter (fun q => (nth q ms 0 =? nth k ms 0)%Z) (seq 0 (List.length ms))) <-> x = k).
  { intros x. rewrite filter_In, in_seq, Z.eqb_eq. split; [intros (H & E); apply (proj1 (NoDup_nth ms 0%Z) ND); [lia|exact Hk|exact E]|intros ->; split; [lia|reflexivity]]. }
  pose proof (NoDup_filter (fun q => (nth q ms 0 =? nth k ms 0)%Z) (seq_NoDup (List.length ms) 0)) as NF. destruct (filter _ _) as [|x [|y l]].
  - exfalso. apply (A k). reflexivity.
  - f_equal. apply A. left; reflexivity.
  - exfalso. inversion NF; subst. apply H1. left. rewrite (proj1 (A x)), (proj1 (A y)); cbn; auto.
Qed.
Lemma sorted_nodup l : StronglySorted Z.lt l -> NoDup l.
Proof. induction 1 as [|x l S IH F]; constructor; [|exact IH]. intros H. rewrite Forall_forall in F. specialize (F x H). lia. Qed.
Lemma sorted_inc l : StronglySorted Z.lt l -> forall a b, (a < b < List.length l)%nat -> (nth a l 0 < nth b l 0)%Z.
Proof. intros SS. induction SS as [|x l S IH F]; intros a b H; [cbn in H; lia|]. cbn [List.length] in H. rewrite Forall_forall in F. destruct a as [|a], b as [|b]; try lia; cbn [nth]; [apply F; apply nth_In; lia|apply IH; lia]. Qed.
Lemma piecewise_reads erf tppf maps order START END BREAK MISSING CYCLES months nlat nlon fill tm v :
  months_are START END MISSING months -> monthly maps order months nlat nlon fill tm v ->
  exists g, rows (sdata g) = nlat /\ cols (sdata g) = nlon /\ times g = map tm months /\ (forall i j, (i < nlat)%nat -> (j < nlon)%nat -> series g i j = Ok (map (fun m => stored fill (v m i j)) months)) /\
  piecewise_grace_maps erf tppf maps order START END BREAK MISSING CYCLES =
  if negb (existsb (Z.eqb BREAK) months) then Err ValueError else
  do cs <- all_cells g (piecewise_cell erf tppf (map tm months) (month_index months BREAK) CYCLES);
  Ok (coef_maps (["x0"; "px1"; "px1"]%string ++ flat_map labels_of CYCLES) (fun k => if (k =? 2)%nat then BREAK else START) (fun k => if (k =? 1)%nat then BREAK else END) cs ++ amp_maps 3 "" START END (flat_map amps_of CYCLES) cs ++ stat_maps "px1" START END cs)%list.
Proof.
  intros HM HI. destruct (read_ok maps order months nlat nlon fill tm v (proj1 HM) HI) as (g & EG & RG & CG & TG & MG & SG). exists g. split; [exact RG|]. split; [exact CG|]. split; [exact TG|]. split; [exact SG|].
  unfold piecewise_grace_maps. rewrite (months_unique _ _ _ _ HM), EG. cbn [bind]. rewrite MG, TG. reflexivity.
Qed.
Lemma exists_in x l : existsb (Z.eqb x) l = true <-> In x l.
Proof. rewrite existsb_exists. split; [intros (y & H & E); apply Z.eqb_eq in E; subst; exact H|intros H; exists x; split; [exact H|apply Z.eqb_refl]]. Qed.
Lemma piecewise_run erf tppf maps order START END BREAK MISSING CYCLES months nlat nlon fill tm v out :
  months_are START END MISSING months -> monthly maps order months nlat nlon fill tm v ->
  piecewise_grace_maps erf tppf maps order START END BREAK MISSING CYCLES = Ok out ->
  exists k cs, (k < List.length months)%nat /\ nth k months 0%Z = BREAK /\
  out = (coef_maps (["x0"; "px1"; "px1"]%string ++ flat_map labels_of CYCLES) (fun k => if (k =? 2)%nat then BREAK else START) (fun k => if (k =? 1)%nat then BREAK else END) cs ++ amp_maps 3 "" START END (flat_map amps_of CYCLES) cs ++ stat_maps "px1" START END cs)%list /\
  forall i j, (i < nlat)%nat -> (j < nlon)%nat -> piecewise_cell erf tppf (map tm months) [k] CYCLES (map (fun m => stored fill (v m i j)) months) = Ok (at_cell cs i j).
Proof.
  intros HM HI E. destruct (piecewise_reads erf tppf maps order START END BREAK MISSING CYCLES months nlat nlon fill tm v HM HI) as (g & RG & CG & TG & SG & EQ). rewrite EQ in E. clear EQ.
  destruct (existsb (Z.eqb BREAK) months) eqn:EB in E; cbn [negb] in E; [|discriminate E]. apply exists_in in EB. apply (In_nth _ _ 0%Z) in EB. destruct EB as (k & Hk & EB).
  destruct (all_cells g _) as [cs|] eqn:EC in E; cbn [bind] in E; [|discriminate E]. exists k, cs. split; [exact Hk|]. split; [exact EB|]. split; [congruence|]. intros i j Hi Hj.
  rewrite <- EB, (index_single months k (sorted_nodup _ (proj1 HM)) Hk) in EC. apply (cells_ok g _ cs EC i j); [lia|lia|apply SG; assumption].
Qed.
Lemma pw_columns (tm : Z -> R) months k CYCLES : StronglySorted Z.lt months -> (forall m m', In m months -> In m' months -> (m < m')%Z -> tm m < tm m') -> (k < List.length months)%nat -> in_order CYCLES ->
  Forall2 (column_is (map tm months)) (pw_design (map tm months) k (tm (nth k months 0%Z)) (filter stays CYCLES) (flat_map (terms_of (map tm months)) CYCLES)) (ramps (tm (nth k months 0%Z)) (flat_map labels_of CYCLES)).
Proof.
  intros SS HT Hk HA. unfold pw_design, ramps. cbn [app]. constructor; [|constructor; [|constructor; [|apply rest_columns; exact HA]]].
  - intros i Hi. rewrite (nth_map _ _ i 0) by exact Hi. reflexivity.
  - intros i Hi. reflexivity.
  - intros i Hi. change (nth i ?l 0) with (at_ l i). rewrite tab_at by exact Hi. rewrite map_length in Hi. unfold at_. rewrite (nth_map tm months i 0%Z) by exact Hi. destruct (Nat.leb_spec k i) as [L|L].
    + rewrite Rmax_right; [reflexivity|]. destruct (Nat.eq_dec k i) as [->|N]; [lra|]. assert (tm (nth k months 0%Z) < tm (nth i months 0%Z)); [|lra]. apply HT; [apply nth_In; lia|apply nth_In; lia|apply sorted_inc; [exact SS|lia]].
    + rewrite Rmax_left; [reflexivity|]. assert (tm (nth i months 0%Z) < tm (nth k months 0%Z)); [|lra]. apply HT; [apply nth_In; lia|apply nth_In; lia|apply sorted_inc; [exact SS|lia]].
Qed.
Lemma break_at (tm : Z -> R) months k : (k < List.length months)%nat -> breakpoint (map tm months) (Some (Z.of_nat k)) None = Ok (k, tm (nth k months 0%Z)).
Proof.
  intros H. unfold breakpoint, py_get. rewrite map_length. assert (B1 : (Z.of_nat k <? 0)%Z = false) by (apply Z.ltb_ge; lia). assert (B2 : (0 <=? Z.of_nat k)%Z = true) by (apply Z.leb_le; lia). assert (B3 : (Z.of_nat k <? Z.of_nat (List.length months))%Z = true) by (apply Z.ltb_lt; lia).
  cbv zeta. rewrite !B1, !B2, !B3. cbn [andb]. rewrite Nat2Z.id. rewrite (nth_error_nth' (map tm months) 0) by (rewrite map_length; exact H). cbn [bind]. rewrite (nth_map tm months k 0%Z) by exact H. reflexivity.
Qed.
(** the fit of one cell *)
Lemma cell_piecewise erf tppf (tm g : Z -> R) months k CYCLES x : StronglySorted Z.lt months -> (forall m m', In m months -> In m' months -> (m < m')%Z -> tm m < tm m') -> (k < List.length months)%nat -> in_order CYCLES ->
  piecewise_cell erf tppf (map tm months) [k] CYCLES (map g months) = Ok x ->
  let fs := ramps (tm (nth k months 0%Z)) (flat_map labels_of CYCLES) in let p := List.length fs in let SQ b := Sum (map (fun m => (g m - mixture fs b (tm m)) ^ 2) months) in
  exists beta cov, let t975 := tppf (975 / 1000) (Z.of_nat (List.length months) - Z.of_nat p)%Z in let n := INR (List.length months) in let var := SQ beta / (n - INR p) in
  (p < List.length months)%nat /\ (forall k, (k < p)%nat -> at_ (c_beta x) k = if (k =? 2)%nat then beta 1%nat + beta 2%nat else beta k) /\ (forall b, SQ beta <= SQ b) /\ (forall b, SQ b = SQ beta -> forall k, (k < p)%nat -> b k = beta k) /\
  (forall b, (forall m, In m months -> mixture fs b (tm m) = 0) -> forall k, (k < p)%nat -> b k = 0) /\
  (forall j k, (j < p)%nat -> (k < p)%nat -> rsum p (fun l => Sum (map (fun m => nth j fs (fun _ => 0) (tm m) * nth l fs (fun _ => 0) (tm m)) months) * cov l k) = if (j =? k)%nat then 1 else 0) /\
  (forall k, (k < p)%nat -> at_ (c_error x) k = if (k =? 2)%nat then sqrt ((t975 * sqrt (var * cov 1%nat 1%nat)) ^ 2 + (t975 * sqrt (var * cov 2%nat 2%nat)) ^ 2) else t975 * sqrt (var * cov k k)) /\ (forall k, (k < p)%nat -> 0 < cov k k) /\
  at_ (c_stats x) 0 = SQ beta /\ at_ (c_stats x) 1 = n * (ln (2 * PI) + 1 - ln n + ln (SQ beta)) + 2 * (INR p + 1) /\ at_ (c_stats x) 2 = n * (ln (2 * PI) + 1 - ln n + ln (SQ beta)) + ln n * (INR p + 1) /\
  at_ (c_stats x) 3 = 1 - SQ beta / Sum (map (fun m => (g m - Sum (map g months) / n) ^ 2) months) * ((n - 1) / (n - INR p)).
Proof.
  intros SS HT Hk HA E. cbv zeta. unfold piecewise_cell in E. set (t := map tm months) in *. set (cs := filter stays CYCLES) in *. set (Ts := flat_map (terms_of t) CYCLES) in *. set (fs := ramps (tm (nth k months 0%Z)) (flat_map labels_of CYCLES)).
  destruct (piecewise erf tppf t (map g months) (Some (Z.of_nat k)) None cs Ts (Scalar 0) false 0 (95 / 100) false) as [q|] eqn:Q; cbn [bind] in E; [|discriminate E]. injection E as <-. cbn [c_beta c_error c_stats].
  pose proof (pw_columns tm months k CYCLES SS HT Hk HA) as F. fold t cs Ts fs in F. pose proof (break_at tm months k Hk) as EB. fold t in EB.
  destruct (pw_core _ _ _ _ _ _ _ _ _ _ _ _ _ _ Q) as (k' & tc & s & EB' & N1 & EF & C & EBt). rewrite EB in EB'. assert (k' = k) by congruence. assert (tc = tm (nth k months 0%Z)) by congruence. subst k' tc. clear EB'.
  set (D := pw_design t k (tm (nth k months 0%Z)) cs Ts) in *. assert (LT : List.length t = List.length months) by apply map_length. rewrite LT in C, EF, N1. pose proof (core_functions D tm g months _ s fs _ C F) as CF. cbv zeta in CF.
  set (SQ := fun b => Sum (map (fun m => (g m - mixture fs b (tm m)) ^ 2) months)) in *. destruct CF as (PL & LB & RS & MIN & UNI & IND & INV). pose proof (F2_len _ _ _ F) as LF. set (p := List.length fs) in *.
  exists (at_ (f_beta (p_fit q))), (f_cov (p_fit q)). cbv zeta. assert (P3 : (3 <= p)%nat) by (unfold p, fs, ramps; cbn; lia).
  destruct (core_ok _ _ _ _ _ _ _ EF) as (s' & C' & (_ & R2A) & (LK & AI & BI)). cbv zeta in R2A, LK, AI, BI. pose proof (fun k => cov_diag_pos _ _ _ _ _ _ _ k C) as CP. rewrite LF in AI, BI, CP.
  destruct C as (_ & _ & _ & _ & DF & _ & _ & ERs & SW & W0 & _). rewrite LF in DF.
  assert (DN : IZR (f_dof (p_fit q)) = INR (List.length months) - INR p) by (rewrite DF, minus_IZR, <- !INR_IZR_INZ; reflexivity). assert (DNZ : IZR (f_dof (p_fit q)) <> 0) by (rewrite DF; apply not_0_IZR; lia).
  assert (QR : p_mse q = mse (p_fit q) /\ p_error q = comb2 (map (fun s0 => t_star erf tppf 0 (95 / 100) (f_dof (p_fit q)) * s0) (tab (List.length D) (fun j => sqrt (mse (p_fit q) * f_cov (p_fit q) j j))))).
  { unfold piecewise in Q. rewrite LT in Q. destruct (Nat.eqb_spec (List.length months) 1); [congruence|]. rewrite EB in Q. cbn [bind] in Q. fold D in Q. rewrite EF in Q. cbn [bind is_scalar] in Q. destruct (Req_EM_T 0 0); [|contradiction].
    assert (X : forall a b : pw_result, Ok a = Ok b -> b = a) by congruence. apply X in Q. rewrite Q. cbn [p_mse p_error p_fit]. split; reflexivity. }
  destruct QR as (QM & QE). assert (ME : mse (p_fit q) = SQ (at_ (f_beta (p_fit q))) / IZR (f_dof (p_fit q))).
  { unfold mse. f_equal. rewrite <- RS. assert (X : forall l, sum_ (map (fun r => r * r) l) = rsum (List.length l) (fun i => at_ l i ^ 2)). { induction l as [|y l IH]; [reflexivity|]. cbn [map sum_ fold_right List.length]. rewrite rsum_head. unfold sum_ in IH. rewrite IH. unfold at_. cbn [nth]. ring_simplify. f_equal. }
    rewrite X, ERs, tab_len. reflexivity. }
  assert (TS : t_star erf tppf 0 (95 / 100) (f_dof (p_fit q)) = tppf (975 / 1000) (Z.of_nat (List.length months) - Z.of_nat p)%Z).
  { unfold t_star. destruct (Req_EM_T 0 0); [|contradiction]. destruct (Req_EM_T (95 / 100) 0); [exfalso; lra|]. rewrite DF. f_equal. field. }
  split; [exact PL|]. split; [intros j Hj; rewrite EBt, upd_at by (rewrite LB; lia); reflexivity|]. split; [exact MIN|]. split; [exact UNI|]. split; [exact IND|]. split; [exact INV|]. split; [|split; [exact CP|]].
  { assert (AT : forall j, (j < p)%nat -> at_ (map (fun s0 => t_star erf tppf 0 (95 / 100) (f_dof (p_fit q)) * s0) (tab (List.length D) (fun j => sqrt (mse (p_fit q) * f_cov (p_fit q) j j)))) j = tppf (975 / 1000) (Z.of_nat (List.length months) - Z.of_nat p)%Z * sqrt (SQ (at_ (f_beta (p_fit q))) / (INR (List.length months) - INR p) * f_cov (p_fit q) j j)).
    { intros j Hj. rewrite at_map by (rewrite tab_len, LF; exact Hj). rewrite tab_at by (rewrite LF; exact Hj). rewrite TS, ME, DN. reflexivity. }
    intros j Hj. rewrite QE. unfold comb2. rewrite upd_at by (rewrite map_length, tab_len, LF; lia). rewrite !AT by lia. reflexivity. }
  assert (A4 : forall a b c d, at_ [a; b; c; d] 0 = a /\ at_ [a; b; c; d] 1 = b /\ at_ [a; b; c; d] 2 = c /\ at_ [a; b; c; d] 3 = d) by (intros; repeat split). destruct (A4 (p_mse q * IZR (f_dof (p_fit q))) (f_AIC (p_fit q)) (f_BIC (p_fit q)) (f_R2Adj (p_fit q))) as (-> & -> & -> & ->). rewrite QM, ME. fold (SQ (at_ (f_beta (p_fit q)))). split; [field; exact DNZ|].
  assert (W : rsum (List.length months) (fun i => f_w (p_fit q) i * at_ (f_residual (p_fit q)) i ^ 2) = SQ (at_ (f_beta (p_fit q)))).
  { rewrite <- RS. apply rsum_ext. intros i Hi. destruct (SW i Hi) as (_ & ->). rewrite (proj1 (W0 eq_refl)). ring. }
  rewrite W, ln_1 in LK. split; [rewrite AI, LK; lra|]. split; [rewrite BI, LK; lra|]. rewrite R2A, DN. f_equal. f_equal. f_equal.
  - rewrite <- RS. apply rsum_ext. intros i Hi. ring.
  - rewrite (Sum_rsum _ months 0%Z). apply rsum_ext. intros i Hi. unfold at_. rewrite (nth_map g months i 0%Z) by exact Hi. unfold mean_, sum_. rewrite map_length. unfold Sum. ring.
Qed.
Lemma mixture_ext fs b b' x : (forall k, (k < List.length fs)%nat -> b k = b' k) -> mixture fs b x = mixture fs b' x.
Proof. intros H. unfold mixture. apply rsum_ext. intros k Hk. rewrite H by exact Hk. reflexivity. Qed.
Lemma mixture_two fs a b x : (a < List.length fs)%nat -> (b < List.length fs)%nat -> mixture fs (fun k => delta k a - delta k b) x = nth a fs (fun _ => 0) x - nth b fs (fun _ => 0) x.
Proof.
  intros Ha Hb. unfold mixture. rewrite (rsum_ext _ _ (fun k => delta k a * nth k fs (fun _ => 0) x + (-1) * (delta k b * nth k fs (fun _ => 0) x))) by (intros; ring). rewrite rsum_plus, rsum_scal, !rsum_delta by assumption. ring.
Qed.
Lemma ramps_nodup tb L months (tm : Z -> R) : (forall b, (forall m, In m months -> mixture (ramps tb L) b (tm m) = 0) -> forall k, (k < List.length (ramps tb L))%nat -> b k = 0) -> NoDup L.
Proof.
  intros IND. assert (LR : List.length (ramps tb L) = (3 + List.length L)%nat) by (unfold ramps; cbn; rewrite map_length; reflexivity). apply (NoDup_nth L EmptyString). intros a b Ha Hb E. destruct (Nat.eq_dec a b) as [|N]; [assumption|]. exfalso.
  assert (Z : delta (3 + a) (3 + a) - delta (3 + a) (3 + b) = 0); [|unfold delta in Z; rewrite Nat.eqb_refl in Z; destruct (Nat.eqb_spec (3 + a) (3 + b)); [lia|lra]]. refine (IND (fun k => delta k (3 + a)%nat - delta k (3 + b)%nat) _ (3 + a)%nat _); [|lia]. intros m _. rewrite mixture_two by lia.
  unfold ramps. cbn [Nat.add nth]. rewrite !(nth_map (meaning 0) L _ EmptyString) by assumption. rewrite E. ring.
Qed.
(** a file of a coefficient *)
Lemma coef_file out labels START END BREAK cs rest k i j : (k < List.length labels)%nat -> out = (coef_maps labels (fun k => if (k =? 2)%nat then BREAK else START) (fun k => if (k =? 1)%nat then BREAK else END) cs ++ rest)%list ->
  let a := if (k =? 2)%nat then BREAK else START in let b := if (k =? 1)%nat then BREAK else END in
  file out (nth k labels EmptyString) a b i j (at_ (c_beta (at_cell cs i j)) k) /\ file_error_of out (nth k labels EmptyString) a b i j (at_ (c_error (at_cell cs i j)) k).
Proof.
  intros Hk ->. cbv zeta. split; [eexists|eexists; eexists]; (split; [apply in_or_app; left; apply (coef_in labels (fun k => if (k =? 2)%nat then BREAK else START) (fun k => if (k =? 1)%nat then BREAK else END) cs _ Hk)|]); cbn [o_name o_first o_last o_data o_mask o_error]; repeat split; reflexivity.
Qed.
(** the two slopes and all other coefficients are those of the best fit *)
Theorem C105_fit : forall erf tppf maps order START END BREAK MISSING CYCLES months nlat nlon fill tm v out,
  months_are START END MISSING months -> monthly maps order months nlat nlon fill tm v -> in_order CYCLES -> (0 < nlat)%nat -> (0 < nlon)%nat ->
  piecewise_grace_maps erf tppf maps order START END BREAK MISSING CYCLES = Ok out ->
  In BREAK months /\ exists labels, NoDup labels /\ (forall l, In l labels <-> periodic CYCLES l) /\ (List.length labels + 3 < List.length months)%nat /\
  forall i j, (i < nlat)%nat -> (j < nlon)%nat -> let g := fun m => stored fill (v m i j) in let tb := tm BREAK in
  exists b0 b1 b2 (c : string -> R), file out "x0" START END i j b0 /\ file out "px1" START BREAK i j b1 /\ file out "px1" BREAK END i j b2 /\ (forall l, In l labels -> file out l START END i j (c l)) /\
    (forall b0' b1' b2' c', bent_squares tb labels months tm g b0 b1 b2 c <= bent_squares tb labels months tm g b0' b1' b2' c') /\
    (forall b0' b1' b2' c', bent_squares tb labels months tm g b0' b1' b2' c' = bent_squares tb labels months tm g b0 b1 b2 c -> b0' = b0 /\ b1' = b1 /\ b2' = b2 /\ forall l, In l labels -> c' l = c l).
Proof.
  intros erf tppf maps order START END BREAK MISSING CYCLES months nlat nlon fill tm v out HM HI HA Hn Hm E. destruct (piecewise_run _ _ _ _ _ _ _ _ _ _ _ _ _ _ _ _ HM HI E) as (k & cs & Hk & EB & EO & CF).
  split; [rewrite <- EB; apply nth_In; exact Hk|]. assert (HT : forall m m', In m months -> In m' months -> (m < m')%Z -> tm m < tm m') by (apply (proj1 (proj2 (proj2 HI)))). set (L := flat_map labels_of CYCLES) in *. exists L. set (tb := tm BREAK).
  assert (LR : List.length (ramps tb L) = (3 + List.length L)%nat) by (unfold ramps; cbn; rewrite map_length; reflexivity).
  destruct (cell_piecewise _ _ _ _ _ _ _ _ (proj1 HM) HT Hk HA (CF 0%nat 0%nat Hn Hm)) as (be & co & PL & _ & _ & _ & IND & _). cbv zeta in *. rewrite EB in *. fold tb L in PL, IND. rewrite LR in PL.
  assert (ND : NoDup L) by (apply (ramps_nodup tb L months tm IND)). split; [exact ND|]. split; [intros l; apply periodic_labels|]. split; [lia|]. intros i j Hi Hj. clear be co PL IND.
  destruct (cell_piecewise _ _ _ _ _ _ _ _ (proj1 HM) HT Hk HA (CF i j Hi Hj)) as (be & co & PL & CB & MIN & UNI & _). cbv zeta in *. rewrite EB in *. fold tb L in PL, CB, MIN, UNI.
  assert (BS : forall b0 b1 b2 c, bent_squares tb L months tm (fun m => stored fill (v m i j)) b0 b1 b2 c = Sum (map (fun m => (stored fill (v m i j) - mixture (ramps tb L) (coefs4 b0 b1 (b2 - b1) L c) (tm m)) ^ 2) months)).
  { intros b0 b1 b2 c. unfold bent_squares. f_equal. apply map_ext. intros m. rewrite bent_mixture. reflexivity. }
  set (c := fun l => be (3 + posn l L)%nat). exists (be 0%nat), (be 1%nat), (be 1%nat + be 2%nat), c.
  assert (C4 : forall q, (q < List.length (ramps tb L))%nat -> coefs4 (be 0%nat) (be 1%nat) (be 1%nat + be 2%nat - be 1%nat) L c q = be q).
  { intros q Hq. rewrite LR in Hq. destruct q as [|[|[|q]]]; cbn [coefs4]; [reflexivity|reflexivity|ring|]. unfold c. rewrite posn_nth by (try exact ND; lia). reflexivity. }
  assert (SE : bent_squares tb L months tm (fun m => stored fill (v m i j)) (be 0%nat) (be 1%nat) (be 1%nat + be 2%nat) c = Sum (map (fun m => (stored fill (v m i j) - mixture (ramps tb L) be (tm m)) ^ 2) months)).
  { rewrite BS. f_equal. apply map_ext. intros m. rewrite (mixture_ext _ _ be) by exact C4. reflexivity. }
  pose proof (fun q Hq => coef_file out _ START END BREAK cs _ q i j Hq EO) as FI. cbv zeta in FI. rewrite app_length in FI. cbn [List.length] in FI. rewrite LR in *.
  split; [destruct (FI 0%nat ltac:(lia)) as (F0 & _); rewrite (CB 0%nat) in F0 by lia; exact F0|]. split; [destruct (FI 1%nat ltac:(lia)) as (F0 & _); rewrite (CB 1%nat) in F0 by lia; exact F0|]. split; [destruct (FI 2%nat ltac:(lia)) as (F0 & _); rewrite (CB 2%nat) in F0 by lia; exact F0|]. split; [|split].
  - intros l Hl. destruct (posn_in l L Hl) as (P1 & P2). destruct (FI (3 + posn l L)%nat ltac:(fold L; lia)) as (F0 & _). rewrite (CB (3 + posn l L)%nat) in F0 by lia. cbn [Nat.add Nat.eqb app nth] in F0. fold L in F0. rewrite P2 in F0. exact F0.
  - intros b0 b1 b2 c'. rewrite SE, BS. apply MIN.
  - intros b0 b1 b2 c' H. rewrite SE, BS in H. specialize (UNI _ H). pose proof (UNI 0%nat ltac:(lia)) as U0. pose proof (UNI 1%nat ltac:(lia)) as U1. pose proof (UNI 2%nat ltac:(lia)) as U2. cbn [coefs4] in U0, U1, U2. split; [exact U0|]. split; [exact U1|]. split; [lra|].
    intros l Hl. destruct (posn_in l L Hl) as (P1 & P2). specialize (UNI (3 + posn l L)%nat ltac:(lia)). cbn [Nat.add coefs4] in UNI. rewrite P2 in UNI. rewrite UNI. reflexivity.
Qed.
Print Assumptions C105_fit.
(** a cell whose values lie on a broken line with the break at the time of month BREAK (plus periodic terms): the maps show its slopes *)
Theorem C105_exact : forall erf tppf maps order START END BREAK MISSING CYCLES months nlat nlon fill tm v out i j b0 b1 b2 c labels,
  months_are START END MISSING months -> monthly maps order months nlat nlon fill tm v -> in_order CYCLES -> (i < nlat)%nat -> (j < nlon)%nat ->
  piecewise_grace_maps erf tppf maps order START END BREAK MISSING CYCLES = Ok out ->
  NoDup labels -> (forall l, In l labels <-> periodic CYCLES l) -> (forall m, In m months -> v m i j = Some (bent (tm BREAK) b0 b1 b2 (tm m) + combined 0 labels c (tm m))) ->
  file out "x0" START END i j b0 /\ file out "px1" START BREAK i j b1 /\ file out "px1" BREAK END i j b2 /\ forall l, periodic CYCLES l -> file out l START END i j (c l).
Proof.
  intros erf tppf maps order START END BREAK MISSING CYCLES months nlat nlon fill tm v out i j b0 b1 b2 c L HM HI HA Hi Hj E ND HL HV.
  destruct (C105_fit _ _ _ _ _ _ _ _ _ _ _ _ _ _ _ _ HM HI HA ltac:(lia) ltac:(lia) E) as (_ & L' & ND' & HL' & _ & H). destruct (H i j Hi Hj) as (e0 & e1 & e2 & c' & F0 & F1 & F2 & FL & MIN & UNI). cbv zeta in MIN, UNI.
  assert (P : Permutation L L') by (apply NoDup_Permutation; [exact ND|exact ND'|]; intros x; rewrite HL, HL'; reflexivity).
  assert (CB : forall x, combined 0 L c x = combined 0 L' c x). { intros x. unfold combined, Sum. clear - P. induction P; cbn [map fold_right]; [reflexivity|rewrite IHP; reflexivity|ring|congruence]. }
  assert (Z : bent_squares (tm BREAK) L' months tm (fun m => stored fill (v m i j)) b0 b1 b2 c = 0).
  { unfold bent_squares. enough (G : forall l0, (forall m, In m l0 -> In m months) -> Sum (map (fun m => (stored fill (v m i j) - (bent (tm BREAK) b0 b1 b2 (tm m) + combined 0 L' c (tm m))) ^ 2) l0) = 0) by (apply G; auto).
    induction l0 as [|a l0 IH]; intros HI0; [reflexivity|]. cbn [map Sum fold_right]. unfold Sum in IH. rewrite IH by (intros m Hm; apply HI0; right; exact Hm). rewrite (HV a) by (apply HI0; left; reflexivity). cbn [stored]. rewrite CB. ring. }
  assert (NN : 0 <= bent_squares (tm BREAK) L' months tm (fun m => stored fill (v m i j)) e0 e1 e2 c').
  { unfold bent_squares. generalize months. induction months0 as [|a l0 IH]; cbn [map Sum fold_right]; [lra|]. unfold Sum in IH. match goal with |- 0 <= ?a ^ 2 + _ => pose proof (pow2_ge_0 a) end. lra. }
  destruct (UNI b0 b1 b2 c) as (-> & -> & -> & U); [specialize (MIN b0 b1 b2 c); lra|]. split; [exact F0|]. split; [exact F1|]. split; [exact F2|]. intros l Hl. apply HL' in Hl. rewrite U by exact Hl. apply FL. exact Hl.
Qed.
Print Assumptions C105_exact.
(** errors and statistics: S least sum of squares, p number of coefficients, cov inverse of the normal matrix of the functions 1, x, ramp, periodic ones.  The error of the slope after the break leaves out twice the covariance of slope
    and change of slope *)
Theorem C105_statistics : forall erf tppf maps order START END BREAK MISSING CYCLES months nlat nlon fill tm v out i j,
  months_are START END MISSING months -> monthly maps order months nlat nlon fill tm v -> in_order CYCLES -> (i < nlat)%nat -> (j < nlon)%nat ->
  piecewise_grace_maps erf tppf maps order START END BREAK MISSING CYCLES = Ok out ->
  exists labels b0 b1 b2 c cov, NoDup labels /\ (forall l, In l labels <-> periodic CYCLES l) /\ file out "x0" START END i j b0 /\ file out "px1" START BREAK i j b1 /\ file out "px1" BREAK END i j b2 /\ (forall l, In l labels -> file out l START END i j (c l)) /\
  let g := fun m => stored fill (v m i j) in let tb := tm BREAK in let fs := ramps tb labels in let f := fun k => nth k fs (fun _ => 0) in let n := INR (List.length months) in let p := (List.length labels + 3)%nat in
  let S := bent_squares tb labels months tm g b0 b1 b2 c in let var := S / (n - INR p) in let t975 := tppf (975 / 1000) (Z.of_nat (List.length months) - Z.of_nat p)%Z in
  (forall b0' b1' b2' c', S <= bent_squares tb labels months tm g b0' b1' b2' c') /\
  (forall j k, (j < p)%nat -> (k < p)%nat -> rsum p (fun l => Sum (map (fun m => f j (tm m) * f l (tm m)) months) * cov l k) = if (j =? k)%nat then 1 else 0) /\
  file_error_of out "x0" START END i j (t975 * sqrt (var * cov 0%nat 0%nat)) /\ file_error_of out "px1" START BREAK i j (t975 * sqrt (var * cov 1%nat 1%nat)) /\
  (forall k, (k < List.length labels)%nat -> file_error_of out (nth k labels EmptyString) START END i j (t975 * sqrt (var * cov (3 + k)%nat (3 + k)%nat))) /\
  (exists e, file_error_of out "px1" BREAK END i j e /\ e = Rabs t975 * sqrt (var * (cov 1%nat 1%nat + cov 2%nat 2%nat)) /\
     (0 < t975 -> 0 < S -> (e = t975 * sqrt (var * (cov 1%nat 1%nat + cov 2%nat 2%nat + 2 * cov 1%nat 2%nat)) <-> cov 1%nat 2%nat = 0))) /\
  file out "SSE_px1" START END i j S /\
  file out "AIC_px1" START END i j (n * (ln (2 * PI) + 1 - ln n + ln S) + 2 * (INR p + 1)) /\
  file out "BIC_px1" START END i j (n * (ln (2 * PI) + 1 - ln n + ln S) + ln n * (INR p + 1)) /\
  file out "R2Adj_px1" START END i j (1 - S / Sum (map (fun m => (g m - Sum (map g months) / n) ^ 2) months) * ((n - 1) / (n - INR p))).
Proof.
  intros erf tppf maps order START END BREAK MISSING CYCLES months nlat nlon fill tm v out i j HM HI HA Hi Hj E. destruct (piecewise_run _ _ _ _ _ _ _ _ _ _ _ _ _ _ _ _ HM HI E) as (k & cs & Hk & EB & EO & CF).
  assert (HT : forall m m', In m months -> In m' months -> (m < m')%Z -> tm m < tm m') by (apply (proj1 (proj2 (proj2 HI)))). set (L := flat_map labels_of CYCLES) in *. set (tb := tm BREAK).
  assert (LR : List.length (ramps tb L) = (3 + List.length L)%nat) by (unfold ramps; cbn; rewrite map_length; reflexivity).
  destruct (cell_piecewise _ _ _ _ _ _ _ _ (proj1 HM) HT Hk HA (CF i j Hi Hj)) as (be & co & PL & CB & MIN & UNI & IND & INV & ER & CP & S0 & S1 & S2 & S3). cbv zeta in *. rewrite EB in *. fold tb L in PL, CB, MIN, UNI, IND, INV, ER, CP, S0, S1, S2, S3.
  assert (ND : NoDup L) by (apply (ramps_nodup tb L months tm IND)). set (c := fun l => be (3 + posn l L)%nat). exists L, (be 0%nat), (be 1%nat), (be 1%nat + be 2%nat), c, co.
  assert (BS : forall b0 b1 b2 c, bent_squares tb L months tm (fun m => stored fill (v m i j)) b0 b1 b2 c = Sum (map (fun m => (stored fill (v m i j) - mixture (ramps tb L) (coefs4 b0 b1 (b2 - b1) L c) (tm m)) ^ 2) months)).
  { intros b0 b1 b2 c'. unfold bent_squares. f_equal. apply map_ext. intros m. rewrite bent_mixture. reflexivity. }
  assert (C4 : forall q, (q < List.length (ramps tb L))%nat -> coefs4 (be 0%nat) (be 1%nat) (be 1%nat + be 2%nat - be 1%nat) L c q = be q).
  { intros q Hq. rewrite LR in Hq. destruct q as [|[|[|q]]]; cbn [coefs4]; [reflexivity|reflexivity|ring|]. unfold c. rewrite posn_nth by (try exact ND; lia). reflexivity. }
  assert (SE : Sum (map (fun m => (stored fill (v m i j) - mixture (ramps tb L) be (tm m)) ^ 2) months) = bent_squares tb L months tm (fun m => stored fill (v m i j)) (be 0%nat) (be 1%nat) (be 1%nat + be 2%nat) c).
  { symmetry. rewrite BS. f_equal. apply map_ext. intros m. rewrite (mixture_ext _ _ be) by exact C4. reflexivity. }
  rewrite SE in *. set (SS := bent_squares tb L months tm (fun m => stored fill (v m i j)) (be 0%nat) (be 1%nat) (be 1%nat + be 2%nat) c) in *.
  pose proof (fun q Hq => coef_file out _ START END BREAK cs _ q i j Hq EO) as FI. cbv zeta in FI. rewrite app_length in FI. cbn [List.length] in FI. fold L in FI. rewrite LR in *. replace (List.length L + 3)%nat with (3 + List.length L)%nat by lia. set (p := (3 + List.length L)%nat) in *.
  assert (P3 : (2 < p)%nat) by (unfold p; lia).
  split; [exact ND|]. split; [intros l; apply periodic_labels|]. split; [destruct (FI 0%nat ltac:(lia)) as (F0 & _); rewrite (CB 0%nat) in F0 by lia; exact F0|]. split; [destruct (FI 1%nat ltac:(lia)) as (F0 & _); rewrite (CB 1%nat) in F0 by lia; exact F0|]. split; [destruct (FI 2%nat ltac:(lia)) as (F0 & _); rewrite (CB 2%nat) in F0 by lia; exact F0|]. split.
  { intros l Hl. destruct (posn_in l L Hl) as (P1 & P2). destruct (FI (3 + posn l L)%nat ltac:(fold L; lia)) as (F0 & _). rewrite (CB (3 + posn l L)%nat) in F0 by (unfold p; lia). cbn [Nat.add Nat.eqb app nth] in F0. fold L in F0. rewrite P2 in F0. exact F0. }
  split; [intros b0 b1 b2 c'; rewrite BS; apply MIN|]. split; [exact INV|]. split; [destruct (FI 0%nat ltac:(lia)) as (_ & F0); rewrite (ER 0%nat) in F0 by lia; exact F0|]. split; [destruct (FI 1%nat ltac:(lia)) as (_ & F0); rewrite (ER 1%nat) in F0 by lia; exact F0|]. split.
  { intros q Hq. destruct (FI (3 + q)%nat ltac:(lia)) as (_ & F0). rewrite (ER (3 + q)%nat) in F0 by (unfold p; lia). cbn [Nat.add Nat.eqb app nth] in F0. exact F0. }
  assert (S0' : 0 <= SS). { unfold SS, bent_squares. clear. induction months as [|a l0 IH]; cbn [map Sum fold_right]; [lra|]. unfold Sum in IH. match goal with |- 0 <= ?a ^ 2 + _ => pose proof (pow2_ge_0 a) end. lra. }
  assert (NP : 0 < INR (List.length months) - INR p) by (apply lt_INR in PL; lra). set (var := SS / (INR (List.length months) - INR p)) in *. assert (V0 : 0 <= var) by (unfold var; apply Rmult_le_pos; [exact S0'|apply Rlt_le, Rinv_0_lt_compat; exact NP]).
  set (t975 := tppf (975 / 1000) (Z.of_nat (List.length months) - Z.of_nat p)%Z) in *. pose proof (CP 1%nat ltac:(lia)) as C1. pose proof (CP 2%nat ltac:(lia)) as C2. split.
  { eexists. split; [destruct (FI 2%nat ltac:(lia)) as (_ & F0); rewrite (ER 2%nat) in F0 by lia; exact F0|]. cbn [Nat.eqb].
    assert (EE : sqrt ((t975 * sqrt (var * co 1%nat 1%nat)) ^ 2 + (t975 * sqrt (var * co 2%nat 2%nat)) ^ 2) = Rabs t975 * sqrt (var * (co 1%nat 1%nat + co 2%nat 2%nat))).
    { rewrite !Rpow_mult_distr, !pow2_sqrt by (apply Rmult_le_pos; lra). replace (t975 ^ 2 * (var * co 1%nat 1%nat) + t975 ^ 2 * (var * co 2%nat 2%nat)) with (t975 ^ 2 * (var * (co 1%nat 1%nat + co 2%nat 2%nat))) by ring.
      rewrite sqrt_mult by (try apply pow2_ge_0; apply Rmult_le_pos; lra). f_equal. rewrite <- Rsqr_pow2. apply sqrt_Rsqr_abs. }
    split; [exact EE|]. intros T0 S0''. rewrite EE, Rabs_pos_eq by lra. assert (V1 : 0 < var) by (unfold var; apply Rdiv_lt_0_compat; assumption). split; [|intros ->; f_equal; f_equal; ring]. intros H. apply Rmult_eq_reg_l in H; [|lra].
    assert (PA : 0 < var * (co 1%nat 1%nat + co 2%nat 2%nat)) by (apply Rmult_lt_0_compat; lra). apply sqrt_lt_R0 in PA as PS. assert (PB : 0 < var * (co 1%nat 1%nat + co 2%nat 2%nat + 2 * co 1%nat 2%nat)). { apply Rnot_le_lt. intros X. rewrite (sqrt_neg_0 _ X) in H. lra. }
    apply sqrt_inj in H; [|lra|lra]. apply Rmult_eq_reg_l in H; lra. }
  assert (ST : forall k nm x, In (k, nm) [(0%nat, "SSE"); (1%nat, "AIC"); (2%nat, "BIC"); (3%nat, "R2Adj")]%string -> at_ (c_stats (at_cell cs i j)) k = x -> file out (nm ++ "_px1")%string START END i j x).
  { intros q nm x Hq Hx. unfold file. eexists. split; [rewrite EO; apply in_or_app; right; apply in_or_app; right; unfold stat_maps; apply in_map_iff; exists (q, nm); split; [reflexivity|exact Hq]|]. cbn [o_name o_first o_last o_data o_mask fst snd]. repeat split; try reflexivity. exact Hx. }
  split; [|split; [|split]]; [refine (ST 0%nat "SSE"%string _ _ S0)|refine (ST 1%nat "AIC"%string _ _ S1)|refine (ST 2%nat "BIC"%string _ _ S2)|refine (ST 3%nat "R2Adj"%string _ _ S3)]; cbn [In]; auto.
Qed.
Print Assumptions C105_statistics.
(** amplitude (no suffix in the file name) and phase *)
Theorem C105_amplitude : forall erf tppf maps order START END BREAK MISSING CYCLES months nlat nlon fill tm v out i j flag sl cl,
  months_are START END MISSING months -> monthly maps order months nlat nlon fill tm v -> (i < nlat)%nat -> (j < nlon)%nat ->
  piecewise_grace_maps erf tppf maps order START END BREAK MISSING CYCLES = Ok out -> wanted CYCLES (flag, (sl, cl)) ->
  exists s c A ph es ec ea ep, file out sl START END i j s /\ file out cl START END i j c /\ file out flag START END i j A /\ file out (flag ++ "_PHASE")%string START END i j ph /\
    wave A ph s c /\ file_error_of out sl START END i j es /\ file_error_of out cl START END i j ec /\ file_error_of out flag START END i j ea /\ file_error_of out (flag ++ "_PHASE")%string START END i j ep /\ (A <> 0 -> wave_errors s c es ec ea ep).
Proof.
  intros erf tppf maps order START END BREAK MISSING CYCLES months nlat nlon fill tm v out i j flag sl cl HM HI Hi Hj E HW. destruct (piecewise_run _ _ _ _ _ _ _ _ _ _ _ _ _ _ _ _ HM HI E) as (k0 & cs & Hk & EB & EO & _). clear k0 Hk EB.
  apply wanted_in in HW. destruct (amps_pairs CYCLES) as (AP & LP). set (ps := flat_map pairs_of CYCLES) in *. apply (In_nth _ _ (EmptyString, (EmptyString, EmptyString))) in HW. destruct HW as (n & Hn & EN). destruct (pair_nth ps n (EmptyString, (EmptyString, EmptyString)) Hn) as (N1 & N2 & N3). rewrite EN in N1, N2. cbn [fst snd] in N1, N2.
  rewrite AP, LP in EO. set (x := at_cell cs i j). set (j0 := (3 + 2 * n)%nat).
  assert (NA : nth n (map fst ps) EmptyString = flag). { rewrite (nth_map fst ps n (EmptyString, (EmptyString, EmptyString))) by exact Hn. rewrite EN. reflexivity. } assert (LA : (n < List.length (map fst ps))%nat) by (rewrite map_length; exact Hn).
  set (s := at_ (c_beta x) j0). set (c := at_ (c_beta x) (j0 + 1)). set (es := at_ (c_error x) j0). set (ec := at_ (c_error x) (j0 + 1)).
  exists s, c, (fst (amplitude s c)), (let p := snd (amplitude s c) in if Rlt_dec p 0 then p + 360 else p), es, ec. eexists. eexists.
  pose proof (fun q Hq => coef_file out _ START END BREAK cs _ q i j Hq EO) as FI. cbv zeta in FI. rewrite app_length in FI. cbn [List.length] in FI.
  destruct (FI j0 ltac:(unfold j0; lia)) as (F1 & F2). destruct (FI (j0 + 1)%nat ltac:(unfold j0; lia)) as (F3 & F4). replace (j0 + 1)%nat with (3 + (2 * n + 1))%nat in F3, F4 by (unfold j0; lia). unfold j0 in F1, F2. cbn [Nat.add Nat.eqb app nth] in F1, F2, F3, F4. rewrite N1 in F1, F2. rewrite N2 in F3, F4.
  split; [exact F1|]. split. { unfold c, j0. replace (3 + 2 * n + 1)%nat with (S (S (S (2 * n + 1)))) by lia. exact F3. }
  assert (IN : forall f, In f (amp_maps 3 "" START END (map fst ps) cs) -> In f out) by (intros f Hf; rewrite EO; apply in_or_app; right; apply in_or_app; left; exact Hf).
  assert (SF : forall z : string, (z ++ "")%string = z) by (induction z as [|a z IH]; [reflexivity|cbn; rewrite IH; reflexivity]).
  split; [|split; [|split; [apply phase_wave|split; [exact F2|split; [|split; [|split]]]]]].
  - eexists. split; [apply IN; unfold amp_maps; apply in_flat_map; exists n; split; [apply in_seq; lia|left; reflexivity]|]. cbn [o_name o_first o_last o_data o_mask]. rewrite NA, SF. repeat split; reflexivity.
  - eexists. split; [apply IN; unfold amp_maps; apply in_flat_map; exists n; split; [apply in_seq; lia|right; left; reflexivity]|]. cbn [o_name o_first o_last o_data o_mask]. rewrite NA. repeat split; reflexivity.
  - unfold ec, j0. replace (3 + 2 * n + 1)%nat with (S (S (S (2 * n + 1)))) by lia. exact F4.
  - eexists. eexists. split; [apply IN; unfold amp_maps; apply in_flat_map; exists n; split; [apply in_seq; lia|left; reflexivity]|]. cbn [o_name o_first o_last o_error]. rewrite NA, SF. repeat split; reflexivity.
  - eexists. eexists. split; [apply IN; unfold amp_maps; apply in_flat_map; exists n; split; [apply in_seq; lia|right; left; reflexivity]|]. cbn [o_name o_first o_last o_error]. rewrite NA. repeat split; reflexivity.
  - intros HA. apply (errors_ok s c es ec HA).
Qed.
Print Assumptions C105_amplitude.
(** ** when the program returns *)
Definition bent_apart (tb : R) (labels : list string) (months : list Z) (tm : Z -> R) : Prop :=
  forall b0 b1 b2 c, (forall m, In m months -> bent tb b0 b1 b2 (tm m) + combined 0 labels c (tm m) = 0) -> b0 = 0 /\ b1 = 0 /\ b2 = 0 /\ forall l, In l labels -> c l = 0.
Lemma bent_apart_iff tb L months tm : NoDup L -> (bent_apart tb L months tm <-> forall b, (forall m, In m months -> mixture (ramps tb L) b (tm m) = 0) -> forall k, (k < List.length (ramps tb L))%nat -> b k = 0).
Proof.
  intros ND. assert (LR : List.length (ramps tb L) = (3 + List.length L)%nat) by (unfold ramps; cbn; rewrite map_length; reflexivity). split.
  - intros H b Hb. set (c := fun l => b (3 + posn l L)%nat). assert (C4 : forall q, (q < List.length (ramps tb L))%nat -> coefs4 (b 0%nat) (b 1%nat) (b 1%nat + b 2%nat - b 1%nat) L c q = b q).
    { intros q Hq. rewrite LR in Hq. destruct q as [|[|[|q]]]; cbn [coefs4]; [reflexivity|reflexivity|ring|]. unfold c. rewrite posn_nth by (try exact ND; lia). reflexivity. }
    destruct (H (b 0%nat) (b 1%nat) (b 1%nat + b 2%nat) c) as (H0 & H1 & H2 & H3).
    { intros m Hm. rewrite bent_mixture, (mixture_ext _ _ b) by exact C4. apply Hb. exact Hm. }
    intros k Hk. rewrite LR in Hk. destruct k as [|[|[|k]]]; [exact H0|exact H1|lra|]. specialize (H3 (nth k L EmptyString) ltac:(apply nth_In; lia)). unfold c in H3. rewrite posn_nth in H3 by (try exact ND; lia). exact H3.
  - intros H b0 b1 b2 c Hb. specialize (H (coefs4 b0 b1 (b2 - b1) L c)). assert (Z : forall k, (k < List.length (ramps tb L))%nat -> coefs4 b0 b1 (b2 - b1) L c k = 0) by (apply H; intros m Hm; rewrite <- bent_mixture; apply Hb; exact Hm). rewrite LR in Z.
    pose proof (Z 0%nat ltac:(lia)) as Z0. pose proof (Z 1%nat ltac:(lia)) as Z1. pose proof (Z 2%nat ltac:(lia)) as Z2. cbn [coefs4] in Z0, Z1, Z2. split; [exact Z0|]. split; [exact Z1|]. split; [lra|]. intros l Hl. destruct (posn_in l L Hl) as (P1 & P2). specialize (Z (3 + posn l L)%nat ltac:(lia)). cbn [Nat.add coefs4] in Z. rewrite P2 in Z. exact Z.
Qed.
Lemma rest_nodup CYCLES : in_order CYCLES -> distinct CYCLES -> NoDup (flat_map labels_of CYCLES).
Proof. intros HA HD. pose proof (labels_nodup 0 CYCLES ltac:(lia) HA HD) as H. unfold all_labels in H. inversion H; assumption. Qed.
Lemma cell_pw_returns erf tppf (tm g : Z -> R) months k CYCLES : StronglySorted Z.lt months -> (forall m m', In m months -> In m' months -> (m < m')%Z -> tm m < tm m') -> (k < List.length months)%nat -> in_order CYCLES ->
  let fs := ramps (tm (nth k months 0%Z)) (flat_map labels_of CYCLES) in (List.length fs < List.length months)%nat -> (forall b, (forall m, In m months -> mixture fs b (tm m) = 0) -> forall q, (q < List.length fs)%nat -> b q = 0) ->
  exists x, piecewise_cell erf tppf (map tm months) [k] CYCLES (map g months) = Ok x.
Proof.
  intros SS HT Hk HA fs LF IND. pose proof (pw_columns tm months k CYCLES SS HT Hk HA) as F. fold fs in F. set (t := map tm months) in *. set (D := pw_design t k (tm (nth k months 0%Z)) (filter stays CYCLES) (flat_map (terms_of t) CYCLES)) in *.
  assert (LT : List.length t = List.length months) by apply map_length. pose proof (F2_len _ _ _ F) as LD.
  assert (CO : columns_ok D (List.length t)).
  { intros c Hc. unfold D, pw_design in Hc. rewrite !in_app_iff in Hc. destruct Hc as [Hc|[Hc|Hc]].
    - destruct Hc as [<-|[<-|[<-|[]]]]; [apply map_length|reflexivity|apply tab_len].
    - unfold cycle_cols in Hc. apply in_flat_map in Hc. destruct Hc as (y & _ & [<-|[<-|[]]]); apply map_length.
    - apply (terms_length t CYCLES). exact Hc. }
  destruct (proj2 (core_returns D (List.length t) (map g months) (Scalar 0) false CO ltac:(rewrite map_length; lia) ltac:(discriminate))) as (f & EF).
  { split; [|lia]. rewrite LD. intros b Hb q Hq. apply (IND b); [|exact Hq]. intros m Hm. apply (In_nth _ _ 0%Z) in Hm. destruct Hm as (i & Hi & <-). rewrite <- (Hb i) by lia. unfold comb, mixture. apply rsum_ext. intros l Hl. f_equal. unfold col, at_. rewrite (F2_nth _ _ _ [] (fun _ => 0) l F) by (rewrite ?LD, ?LT; assumption). f_equal. symmetry. apply nth_map. exact Hi. }
  assert (L2 : (List.length t =? 1)%nat = false). { apply Nat.eqb_neq. rewrite LT. assert (3 <= List.length fs)%nat by (unfold fs, ramps; cbn; lia). lia. }
  unfold piecewise_cell, piecewise. fold t. rewrite L2. pose proof (break_at tm months k Hk) as EB. fold t in EB. rewrite EB. cbn [bind]. fold D. rewrite EF. cbn [bind is_scalar]. destruct (Req_EM_T 0 0); [|contradiction]. cbn [bind]. eexists. reflexivity.
Qed.
Theorem C105_returns : forall erf tppf maps order START END BREAK MISSING CYCLES months nlat nlon fill tm v,
  months_are START END MISSING months -> monthly maps order months nlat nlon fill tm v -> in_order CYCLES -> distinct CYCLES -> (0 < nlat)%nat -> (0 < nlon)%nat ->
  (~ In BREAK months -> piecewise_grace_maps erf tppf maps order START END BREAK MISSING CYCLES = Err ValueError) /\
  ((exists out, piecewise_grace_maps erf tppf maps order START END BREAK MISSING CYCLES = Ok out) <->
   In BREAK months /\ exists labels, NoDup labels /\ (forall l, In l labels <-> periodic CYCLES l) /\ (List.length labels + 3 < List.length months)%nat /\ bent_apart (tm BREAK) labels months tm).
Proof.
  intros erf tppf maps order START END BREAK MISSING CYCLES months nlat nlon fill tm v HM HI HA HD Hn Hm. split.
  { intros NB. destruct (piecewise_reads erf tppf maps order START END BREAK MISSING CYCLES months nlat nlon fill tm v HM HI) as (g & _ & _ & _ & _ & ->). destruct (existsb (Z.eqb BREAK) months) eqn:EB; [exfalso; apply NB; apply exists_in; exact EB|reflexivity]. }
  assert (HT : forall m m', In m months -> In m' months -> (m < m')%Z -> tm m < tm m') by (apply (proj1 (proj2 (proj2 HI)))). set (L := flat_map labels_of CYCLES) in *. set (tb := tm BREAK).
  assert (LR : List.length (ramps tb L) = (3 + List.length L)%nat) by (unfold ramps; cbn; rewrite map_length; reflexivity). pose proof (rest_nodup CYCLES HA HD) as ND. fold L in ND. split.
  - intros (out & E). destruct (piecewise_run _ _ _ _ _ _ _ _ _ _ _ _ _ _ _ _ HM HI E) as (k & cs & Hk & EB & _ & CF). split; [rewrite <- EB; apply nth_In; exact Hk|]. exists L. split; [exact ND|]. split; [intros l; apply periodic_labels|].
    destruct (cell_piecewise _ _ _ _ _ _ _ _ (proj1 HM) HT Hk HA (CF 0%nat 0%nat Hn Hm)) as (be & co & PL & _ & _ & _ & IND & _). cbv zeta in *. rewrite EB in *. fold tb L in PL, IND. split; [lia|]. apply bent_apart_iff; [exact ND|exact IND].
  - intros (IB & L' & ND' & HL' & LL & BA). assert (P : Permutation L' L) by (apply NoDup_Permutation; [exact ND'|exact ND|]; intros x; rewrite HL'; unfold L; rewrite periodic_labels; reflexivity).
    assert (BA' : bent_apart tb L months tm).
    { intros b0 b1 b2 c H. assert (CB : forall x, combined 0 L' c x = combined 0 L c x). { intros x. unfold combined, Sum. clear - P. induction P; cbn [map fold_right]; [reflexivity|rewrite IHP; reflexivity|ring|congruence]. }
      destruct (BA b0 b1 b2 c) as (B0 & B1 & B2 & B3). { intros m Hm'. rewrite CB. apply H. exact Hm'. }
      split; [exact B0|]. split; [exact B1|]. split; [exact B2|]. intros l Hl. apply B3. apply (Permutation_in _ (Permutation_sym P)). exact Hl. }
    pose proof (proj1 (bent_apart_iff _ _ _ _ ND) BA') as BX. rewrite (Permutation_length P) in LL. destruct (piecewise_reads erf tppf maps order START END BREAK MISSING CYCLES months nlat nlon fill tm v HM HI) as (g & RG & CG & _ & SG & ->).
    rewrite (proj2 (exists_in BREAK months) IB). cbn [negb]. apply (In_nth _ _ 0%Z) in IB. destruct IB as (k & Hk & EB).
    destruct (cells_total g (piecewise_cell erf tppf (map tm months) (month_index months BREAK) CYCLES)) as (cs & ->); [|cbn [bind]; eexists; reflexivity]. intros i j Hi Hj. rewrite RG in Hi. rewrite CG in Hj. eexists.
    rewrite <- EB, (index_single months k (sorted_nodup _ (proj1 HM)) Hk). destruct (cell_pw_returns erf tppf tm (fun m => stored fill (v m i j)) months k CYCLES (proj1 HM) HT Hk HA) as (x & EX); [rewrite EB; fold tb L; lia|rewrite EB; exact BX|]. exists x. split; [apply SG; assumption|exact EX].
Qed.
Print Assumptions C105_returns.
Lemma combined_zero r L x : combined r L (fun _ => 0) x = 0.
Proof. unfold combined, Sum. induction L as [|a L IH]; cbn [map fold_right]; [reflexivity|]. rewrite IH. ring. Qed.
(** the break has months on both sides; so all files have different names or months *)
Theorem C105_inner : forall erf tppf maps order START END BREAK MISSING CYCLES months nlat nlon fill tm v out,
  months_are START END MISSING months -> monthly maps order months nlat nlon fill tm v -> in_order CYCLES -> (0 < nlat)%nat -> (0 < nlon)%nat ->
  piecewise_grace_maps erf tppf maps order START END BREAK MISSING CYCLES = Ok out -> exists m m', In m months /\ In m' months /\ (START <= m < BREAK)%Z /\ (BREAK < m' <= END)%Z.
Proof.
  intros erf tppf maps order START END BREAK MISSING CYCLES months nlat nlon fill tm v out HM HI HA Hn Hm E. assert (HT : forall m m', In m months -> In m' months -> (m < m')%Z -> tm m < tm m') by (apply (proj1 (proj2 (proj2 HI)))).
  destruct (piecewise_run _ _ _ _ _ _ _ _ _ _ _ _ _ _ _ _ HM HI E) as (k & cs & Hk & EB & _ & CF). destruct (cell_piecewise _ _ _ _ _ _ _ _ (proj1 HM) HT Hk HA (CF 0%nat 0%nat Hn Hm)) as (be & co & PL & _ & _ & _ & IND & _). cbv zeta in *. rewrite EB in *.
  set (L := flat_map labels_of CYCLES) in *. set (tb := tm BREAK) in *. assert (LR : List.length (ramps tb L) = (3 + List.length L)%nat) by (unfold ramps; cbn; rewrite map_length; reflexivity).
  assert (ND : NoDup L) by (apply (ramps_nodup tb L months tm IND)). assert (IB : In BREAK months) by (rewrite <- EB; apply nth_In; exact Hk). pose proof (proj2 (bent_apart_iff _ _ _ _ ND) IND) as BX. clear IND. rename BX into IND. assert (C0 : forall x, combined 0 L (fun _ => 0) x = 0). { intros x. apply combined_zero. }
  assert (X : (exists m, In m months /\ (m < BREAK)%Z) /\ exists m, In m months /\ (BREAK < m)%Z).
  { split.
    - destruct (existsb (fun m => (m <? BREAK)%Z) months) eqn:EX; [apply existsb_exists in EX; destruct EX as (m & H1 & H2); exists m; split; [exact H1|apply Z.ltb_lt; exact H2]|]. exfalso.
      destruct (IND tb (-1) 0 (fun _ => 0)) as (_ & H1 & _); [|lra]. intros m Hm'. rewrite C0. assert (G : (BREAK <= m)%Z). { apply Z.nlt_ge. intros HL. assert (existsb (fun m => (m <? BREAK)%Z) months = true); [|congruence]. apply existsb_exists. exists m. split; [exact Hm'|apply Z.ltb_lt; exact HL]. }
      unfold bent. destruct (Rlt_dec (tm m) tb) as [RL|RL]; [|lra]. exfalso. destruct (Z.eq_dec BREAK m) as [<-|N]; [unfold tb in RL; lra|]. specialize (HT BREAK m IB Hm' ltac:(lia)). unfold tb in RL. lra.
    - destruct (existsb (fun m => (BREAK <? m)%Z) months) eqn:EX; [apply existsb_exists in EX; destruct EX as (m & H1 & H2); exists m; split; [exact H1|apply Z.ltb_lt; exact H2]|]. exfalso.
      destruct (IND 0 0 1 (fun _ => 0)) as (_ & _ & H1 & _); [|lra]. intros m Hm'. rewrite C0. assert (G : (m <= BREAK)%Z). { apply Z.nlt_ge. intros HL. assert (existsb (fun m => (BREAK <? m)%Z) months = true); [|congruence]. apply existsb_exists. exists m. split; [exact Hm'|apply Z.ltb_lt; exact HL]. }
      unfold bent. destruct (Rlt_dec (tm m) tb) as [RL|RL]; [lra|]. destruct (Z.eq_dec BREAK m) as [<-|N]; [unfold tb; lra|]. specialize (HT m BREAK Hm' IB ltac:(lia)). unfold tb in RL. lra. }
  destruct X as ((m & M1 & M2) & m' & M3 & M4). exists m, m'. apply (proj2 HM) in M1 as M5. apply (proj2 HM) in M3 as M6. repeat split; try assumption; lia.
Qed.
Print Assumptions C105_inner.
(** a value that is no number in one cell of one month (and not marked by a fill value): no map is written at all, by neither program *)
Lemma mapM_stop {A B} (f : A -> res B) l a : In a l -> (forall b, f a <> Ok b) -> forall bs, mapM f l <> Ok bs.
Proof.
  induction l as [|x l IH]; intros I N bs; [destruct I|]. cbn [mapM]. destruct I as [->|I].
  - destruct (f a) as [b|e] eqn:E; cbn [bind]; [destruct (N b eq_refl)|discriminate].
  - destruct (f x) as [b|e]; cbn [bind]; [|discriminate]. destruct (mapM f l) as [t|e] eqn:E; cbn [bind]; [destruct (IH I N t eq_refl)|discriminate].
Qed.
Lemma cells_stop g fit i j k : (i < rows (sdata g))%nat -> (j < cols (sdata g))%nat -> (k < List.length (times g))%nat -> get (sdata g) i j k = None -> forall cs, all_cells g fit <> Ok cs.
Proof.
  intros Hi Hj Hk E cs. unfold all_cells. apply mapM_stop with (a := i); [apply in_seq; lia|]. apply mapM_stop with (a := j); [apply in_seq; lia|]. intros c. unfold TrendMapModel.series.
  match goal with |- context [mapM ?f ?l] => destruct (mapM f l) as [d|e] eqn:M end; cbn [bind]; [|discriminate]. exfalso. revert M. apply mapM_stop with (a := k); [apply in_seq; lia|]. rewrite E. discriminate.
Qed.
Theorem C104_nan : forall erf tppf maps order START END MISSING ORDER CYCLES g i j k, read_maps maps order (months_of START END MISSING) = Ok g ->
  (i < rows (sdata g))%nat -> (j < cols (sdata g))%nat -> (k < List.length (times g))%nat -> get (sdata g) i j k = None -> forall out, regress_grace_maps erf tppf maps order START END MISSING ORDER CYCLES <> Ok out.
Proof.
  intros erf tppf maps order START END MISSING ORDER CYCLES g i j k ER Hi Hj Hk E out. unfold regress_grace_maps. rewrite ER. cbn [bind]. destruct (2 <? ORDER)%nat; [discriminate|].
  match goal with |- context [all_cells g ?f] => destruct (all_cells g f) as [cs|e] eqn:C end; cbn [bind]; [|discriminate]. destruct (cells_stop g _ i j k Hi Hj Hk E cs C).
Qed.
Theorem C105_nan : forall erf tppf maps order START END BREAK MISSING CYCLES g i j k, read_maps maps order (months_of START END MISSING) = Ok g ->
  (i < rows (sdata g))%nat -> (j < cols (sdata g))%nat -> (k < List.length (times g))%nat -> get (sdata g) i j k = None -> forall out, piecewise_grace_maps erf tppf maps order START END BREAK MISSING CYCLES <> Ok out.
Proof.
  intros erf tppf maps order START END BREAK MISSING CYCLES g i j k ER Hi Hj Hk E out. unfold piecewise_grace_maps. rewrite ER. cbn [bind]. destruct (negb _); [discriminate|].
  match goal with |- context [all_cells g ?f] => destruct (all_cells g f) as [cs|e] eqn:C end; cbn [bind]; [|discriminate]. destruct (cells_stop g _ i j k Hi Hj Hk E cs C).
Qed.
Print Assumptions C104_nan.
