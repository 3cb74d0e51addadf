(** C112, second part: breakpoint, amplitudes, when the program returns, refuted claims, example. *)
From Coq Require Import Reals Lra String List Permutation Sorted.
From Verif Require Import Base DestripeModel DestripeProofs LinAlg RegressModel RegressProofs PropRegress PropRegress2 PropPiecewise TsModel.
From Verif Require Import TrendMapModel PropTrendMap PropTrendMap2 PropTrendMap3 QuickModel PropQuick.
Close Scope Z_scope.
Open Scope R_scope.

(** the one row of a month *)
Definition row_of_month (rows : list row) (m : Z) (x : row) : Prop := exists l r, rows = (l ++ x :: r)%list /\ row_month x = m /\ forall y, In y (l ++ r)%list -> row_month y <> m.
(** two lines that meet at tb and periodic functions *)
Definition bent_curve (tb : R) (labels : list string) (b : nat -> R) (x : R) : R :=
  bent tb (b 0%nat) (b 1%nat) (b 2%nat) x + rsum (List.length labels) (fun k => b (3 + k)%nat * meaning 0 (nth k labels EmptyString) x).

(** ** breakpoint *)
Lemma month_row rows m k : month_index (map row_month rows) m = [k] -> (k < List.length rows)%nat /\ row_of_month rows m (nth k rows row0).
Proof.
  intros E. unfold month_index in E. rewrite map_length in E. assert (I : forall j, (j < List.length rows)%nat -> row_month (nth j rows row0) = m <-> j = k).
  { intros j Hj. assert (A : In j [k] <-> (j < List.length rows)%nat /\ row_month (nth j rows row0) = m). { rewrite <- E, filter_In, in_seq. rewrite (nth_map row_month rows j row0) by exact Hj. rewrite Z.eqb_eq. intuition lia. } cbn [In] in A. intuition. }
  assert (Hk : (k < List.length rows)%nat). { assert (A : In k [k]) by (left; reflexivity). rewrite <- E in A. apply filter_In in A. destruct A as (A & _). apply in_seq in A. lia. }
  split; [exact Hk|]. destruct (nth_split rows row0 Hk) as (l & r & Hl & LL). exists l, r. split; [exact Hl|]. split; [apply (I k Hk); reflexivity|]. intros y Hy Y. apply in_app_iff in Hy. destruct Hy as [Hy|Hy]; apply (In_nth _ _ row0) in Hy; destruct Hy as (j & Hj & EY).
  - assert (N : nth j rows row0 = y) by (rewrite Hl, app_nth1 by exact Hj; exact EY). assert (j = k); [|lia]. apply I; [lia|]. rewrite N. exact Y.
  - assert (LR : List.length rows = (k + S (List.length r))%nat) by (rewrite Hl at 1; rewrite app_length; cbn; lia). assert (N : nth (k + 1 + j) rows row0 = y). { rewrite Hl, app_nth2 by lia. replace (k + 1 + j - List.length l)%nat with (S j) by lia. exact EY. }
    assert (k + 1 + j = k)%nat; [|lia]. apply I; [lia|]. rewrite N. exact Y.
Qed.
Lemma row_month_index rows m x : row_of_month rows m x -> exists k, month_index (map row_month rows) m = [k] /\ nth k rows row0 = x.
Proof.
  intros (l & r & -> & EX & N). exists (List.length l). split; [|rewrite app_nth2, Nat.sub_diag by lia; reflexivity]. unfold month_index. rewrite map_length, app_length. cbn [List.length]. rewrite seq_app, filter_app. cbn [seq filter].
  rewrite map_app. cbn [map]. rewrite app_nth2 by (rewrite map_length; lia). rewrite map_length, Nat.add_0_l, Nat.sub_diag. cbn [nth]. rewrite EX, Z.eqb_refl.
  assert (A : forall a n, (forall j, (a <= j < a + n)%nat -> nth j (map row_month l ++ m :: map row_month r) 0%Z <> m) -> filter (fun k => (nth k (map row_month l ++ m :: map row_month r) 0 =? m)%Z) (seq a n) = []).
  { intros a n. revert a. induction n as [|n IH]; intros a H; cbn [seq filter]; [reflexivity|]. destruct (Z.eqb_spec (nth a (map row_month l ++ m :: map row_month r) 0%Z) m) as [E|_]; [exfalso; apply (H a); [lia|exact E]|]. apply IH. intros j Hj. apply H. lia. }
  rewrite !A; [reflexivity| |].
  - intros j Hj. rewrite app_nth2 by (rewrite map_length; lia). rewrite map_length. replace (j - List.length l)%nat with (S (j - List.length l - 1)) by lia. cbn [nth]. rewrite (nth_map row_month r _ row0) by lia. apply N. apply in_app_iff. right. apply nth_In. lia.
  - intros j Hj. rewrite app_nth1 by (rewrite map_length; lia). rewrite (nth_map row_month l _ row0) by lia. apply N. apply in_app_iff. left. apply nth_In. lia.
Qed.
Lemma sorted_R l : StronglySorted Rlt l -> forall a b, (a < b < List.length l)%nat -> nth a l 0 < nth b l 0.
Proof. induction 1 as [|x l S IH F]; intros a b H; [cbn in H; lia|]. cbn [List.length] in H. rewrite Forall_forall in F. destruct a as [|a], b as [|b]; try lia; cbn [nth]; [apply F; apply nth_In; lia|apply IH; lia]. Qed.
Lemma bent_columns t k cycles : StronglySorted Rlt t -> (k < List.length t)%nat -> in_order cycles -> Forall2 (column_is t) (pw_design t k (nth k t 0) (filter stays cycles) (flat_map (terms_of t) cycles)) (ramps (nth k t 0) (flat_map labels_of cycles)).
Proof.
  intros SS Hk HA. unfold pw_design, ramps. cbn [app]. constructor; [|constructor; [|constructor; [|apply rest_columns; exact HA]]].
  - intros i Hi. rewrite (nth_map _ _ i 0) by exact Hi. reflexivity.
  - intros i Hi. reflexivity.
  - intros i Hi. change (nth i ?l 0) with (at_ l i). rewrite tab_at by exact Hi. unfold at_. destruct (Nat.leb_spec k i) as [L|L].
    + rewrite Rmax_right; [reflexivity|]. destruct (Nat.eq_dec k i) as [->|N]; [lra|]. pose proof (sorted_R t SS k i ltac:(lia)). lra.
    + rewrite Rmax_left; [reflexivity|]. pose proof (sorted_R t SS i k ltac:(lia)). lra.
Qed.
Definition unbend (b : nat -> R) (k : nat) : R := if (k =? 2)%nat then b 2%nat - b 1%nat else b k.
Lemma bent_ramps tb L b x : bent_curve tb L b x = mixture (ramps tb L) (unbend b) x.
Proof.
  unfold bent_curve. rewrite bent_ramp. unfold mixture, ramps. cbn [List.length]. rewrite !rsum_head. cbn [nth]. rewrite map_length. unfold unbend. cbn [Nat.eqb].
  assert (X : rsum (List.length L) (fun k => b (3 + k)%nat * meaning 0 (nth k L EmptyString) x) = rsum (List.length L) (fun k => b (S (S (S k))) * nth k (map (meaning 0) L) (fun _ => 0) x)).
  { apply rsum_ext. intros k Hk. rewrite (nth_map (meaning 0) L k EmptyString) by exact Hk. reflexivity. }
  rewrite X. ring.
Qed.
Lemma ramps_len tb L : List.length (ramps tb L) = (3 + List.length L)%nat.
Proof. unfold ramps. cbn. rewrite map_length. reflexivity. Qed.
Lemma misfit_ext rows f g : (forall x, In x rows -> f (row_time x) = g (row_time x)) -> misfit_to rows f = misfit_to rows g.
Proof. intros H. unfold misfit_to. f_equal. apply map_ext_in. intros x Hx. rewrite H by exact Hx. reflexivity. Qed.
(** two lines that meet in the month of the breakpoint; the lines x0, px1, px1 show the value of the first line at time 0 and the two slopes *)
Theorem C112_piecewise : forall erf tppf old rows order m cycles stream ls, in_order cycles -> increasing rows -> prints (run_regress erf tppf old rows order (Some m) cycles stream) old stream ls ->
  exists x names b cov se waves, row_of_month rows m x /\ let tb := row_time x in let labels := (Poly 0 :: Bent :: Bent :: map Named names) in let p := List.length labels in let S b' := misfit_to rows (bent_curve tb names b') in
  let t975 := tppf (975 / 1000) (Z.of_nat (List.length rows) - Z.of_nat p)%Z in
  NoDup names /\ (forall s, In s names <-> periodic cycles s) /\ (p < List.length rows)%nat /\
  ls = (Formula labels :: map (fun k => Coef (nth k labels Bent) (b k) (se k) (if (k =? 2)%nat then sqrt ((t975 * sqrt (S b / (INR (List.length rows) - INR p) * cov 1%nat 1%nat)) ^ 2 + (t975 * sqrt (S b / (INR (List.length rows) - INR p) * cov 2%nat 2%nat)) ^ 2) else t975 * se k)) (seq 0 p) ++ waves ++ closing rows p (S b))%list /\
  (forall y, In y waves -> ~ is_coef y /\ ~ is_closing y) /\
  (forall b', S b <= S b') /\ (forall b', S b' = S b -> forall k, (k < p)%nat -> b' k = b k) /\
  inverse_normal rows (ramps tb names) cov /\
  (forall k, (k < p)%nat -> k <> 2%nat -> se k = sqrt (S b / (INR (List.length rows) - INR p) * cov k k)) /\
  se 2%nat = sqrt (se 1%nat ^ 2 + (sqrt (S b / (INR (List.length rows) - INR p) * cov 2%nat 2%nat)) ^ 2).
Proof.
  intros erf tppf old rows order m cycles stream ls HA HT P. apply run_prints in P. destruct P as (q & L2 & EQ & ES). destruct (summary_ok _ _ _ _ _ ES) as (LB & EL). cbv zeta in LB, EL. unfold fit_rows in EQ.
  set (t := map row_time rows) in *. set (d := map row_value rows) in *. destruct (month_index (map row_month rows) m) as [|k [|k' l']] eqn:EM; [discriminate EQ| |discriminate EQ]. destruct (month_row rows m k EM) as (Hk & RM).
  destruct (piecewise erf tppf t d _ _ _ _ _ _ _ _ _) as [g|] eqn:G in EQ; cbn [bind] in EQ; [|discriminate EQ]. assert (X : forall a b : fitted, Ok a = Ok b -> b = a) by congruence. apply X in EQ. clear X.
  assert (LT : List.length t = List.length rows) by apply map_length.
  destruct (piecewise_inv _ _ _ _ _ _ _ _ ltac:(rewrite LT; exact Hk) G) as (f & st & EF & _ & Est & E1 & E0 & E2 & E3 & E4 & E5). cbv zeta in EF, Est. set (D := pw_design t k (nth k t 0) (filter stays cycles) (flat_map (terms_of t) cycles)) in *. rewrite LT in EF.
  pose proof (bent_columns t k cycles HT ltac:(lia) HA) as F. fold D in F. set (names := flat_map labels_of cycles) in *. assert (TB : nth k t 0 = row_time (nth k rows row0)) by (unfold t; apply nth_map; exact Hk). rewrite TB in F. set (tb := row_time (nth k rows row0)) in *.
  destruct (core_rows D rows f _ EF F) as (PL & LBt & MIN & UNI & IND & INV & ME & DF & CR). cbv zeta in *. rewrite ramps_len in *. pose proof (F2_len _ _ _ F) as LD. rewrite ramps_len in LD.
  set (beta := at_ (f_beta f)) in *. set (b := at_ (p_beta g)). set (se := at_ (comb2 st)).
  exists (nth k rows row0), names, b, (f_cov f), se, (wave_lines (List.length (first_labels order (Some m))) (flat_map amps_of cycles) q). split; [exact RM|]. cbv zeta. fold tb. cbn [List.length]. rewrite map_length.
  assert (BB : forall j, (j < 3 + List.length names)%nat -> unbend b j = beta j).
  { intros j Hj. unfold unbend, b. rewrite E0, !upd_at by (rewrite LBt; lia). fold beta. cbn [Nat.eqb]. destruct (Nat.eqb_spec j 2) as [->|]; [ring|reflexivity]. }
  assert (SB : forall b', misfit_to rows (bent_curve tb names b') = misfit_to rows (mixture (ramps tb names) (unbend b'))) by (intros b'; apply misfit_ext; intros x _; apply bent_ramps).
  assert (SE : misfit_to rows (bent_curve tb names b) = misfit_to rows (mixture (ramps tb names) beta)) by (rewrite SB; apply misfit_ext; intros x _; apply mixture_ext; rewrite ramps_len; exact BB).
  assert (SD : forall j, (j < 3 + List.length names)%nat -> at_ st j = sqrt (misfit_to rows (bent_curve tb names b) / (INR (List.length rows) - INR (3 + List.length names)) * f_cov f j j)) by (intros j Hj; rewrite Est, tab_at by lia; rewrite ME, SE; reflexivity).
  assert (LST : List.length st = (3 + List.length names)%nat) by (rewrite Est, tab_len; exact LD).
  change (S (S (S (List.length names)))) with (3 + List.length names)%nat in *.
  split; [apply (apart_nodup rows (meaning 0) names EmptyString); intros c Hc j Hj|].
  { rewrite map_length in Hj. specialize (IND (fun i => if (i <? 3)%nat then 0 else c (i - 3)%nat)). specialize (fun H => IND H (3 + j)%nat). cbv beta in IND. replace (3 + j - 3)%nat with j in IND by lia. cbn [Nat.ltb Nat.leb Nat.add] in IND. apply IND; [|rewrite ramps_len; lia].
    intros x Hx. etransitivity; [|apply (Hc x Hx)]. unfold mixture, ramps. cbn [List.length]. rewrite !rsum_head. cbn [Nat.ltb Nat.leb Nat.sub nth]. rewrite map_length. rewrite (rsum_ext _ (fun i => c (i - 0)%nat * nth i (map (meaning 0) names) (fun _ => 0) (row_time x)) (fun i => c i * nth i (map (meaning 0) names) (fun _ => 0) (row_time x))) by (intros i _; rewrite Nat.sub_0_r; reflexivity). ring. }
  split; [intros s; apply periodic_labels|]. split; [exact PL|]. split.
  { assert (QB : q_beta q = p_beta g /\ q_std q = comb2 st /\ q_err q = comb2 (map (fun s => tppf (975 / 1000) (f_dof f) * s) st) /\ criteria q = closing rows (3 + List.length names) (misfit_to rows (bent_curve tb names b))).
    { rewrite EQ. cbn [q_beta q_std q_err]. rewrite E1, E2, E3, E4, E5, SE. repeat split. rewrite <- CR. reflexivity. }
    destruct QB as (B1 & B2 & B3 & B4). rewrite EL, B4, B1. assert (LP : List.length (p_beta g) = (3 + List.length names)%nat) by (rewrite E0, upd_length; exact LBt). rewrite LP. f_equal. f_equal. apply map_ext_in. intros j Hj. apply in_seq in Hj. rewrite B2, B3. fold b se.
    assert (LL : nth j (labels_all order (Some m) cycles) Bent = nth j (Poly 0 :: Bent :: Bent :: map Named names) Bent) by reflexivity. rewrite LL. f_equal. unfold comb2. rewrite upd_at by (rewrite map_length; lia). rewrite !at_map by lia. rewrite DF. destruct (Nat.eqb_spec j 2) as [->|N].
    - rewrite !SD by lia. reflexivity.
    - f_equal. unfold se, comb2. rewrite upd_at by lia. destruct (Nat.eqb_spec j 2); [contradiction|reflexivity]. }
  split. { intros x Hx. split; [apply (named_not_coef (List.length (first_labels order (Some m))) (flat_map amps_of cycles) q); apply in_app_iff; left; exact Hx|apply (wave_not_closing _ _ _ _ Hx)]. }
  split; [intros b'; rewrite SE, SB; apply MIN|]. split.
  { intros b' Hb j Hj. rewrite SE, SB in Hb. pose proof (UNI _ Hb) as U. pose proof (U 1%nat ltac:(lia)) as U1. pose proof (U 2%nat ltac:(lia)) as U2. rewrite <- BB in U1, U2 by lia. unfold unbend in U1, U2. cbn [Nat.eqb] in U1, U2. destruct (Nat.eq_dec j 2) as [->|N]; [lra|].
    specialize (U j Hj). rewrite <- BB in U by exact Hj. unfold unbend in U. destruct (Nat.eqb_spec j 2); [contradiction|exact U]. }
  split; [exact INV|]. split.
  - intros j Hj N. unfold se, comb2. rewrite upd_at by lia. destruct (Nat.eqb_spec j 2); [contradiction|]. apply SD. exact Hj.
  - unfold se at 1, comb2. rewrite upd_at by lia. cbn [Nat.eqb]. unfold se, comb2. rewrite upd_at by lia. cbn [Nat.eqb]. rewrite <- (SD 2%nat) by lia. reflexivity.
Qed.
Print Assumptions C112_piecewise.
