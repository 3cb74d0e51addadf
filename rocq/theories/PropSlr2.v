(** C82 other SLR readers (SLR/C30.py, C40.py, C50.py, CS2.py, geocenter.from_gravis), weekly files. *)
From Coq Require Import QArith Qround Qabs Lqa Lia ZifyBool ZArith List Sorted Sorting Permutation.
From Verif Require Import Base TimeModel TimeSpec SlrModel PropSlr.
Import ListNotations.
Open Scope Z_scope.
Close Scope Q_scope.

Lemma py_get_ok {A} (l : list A) (k : nat) d : (k < length l)%nat -> py_get l (Z.of_nat k) = Ok (nth k l d).
Proof.
  intros H. unfold py_get. replace (Z.of_nat k <? 0) with false by lia.
  replace ((0 <=? Z.of_nat k) && (Z.of_nat k <? Z.of_nat (length l)))%bool with true by lia. rewrite Nat2Z.id. rewrite (nth_error_nth' _ d H). reflexivity.
Qed.
(** ** Column tables *)
(** lines with more than n numbers *)
Definition longer (n : nat) (l : line) : bool := (n <? length (nums l))%nat.
Definition e_10 : Q := 1 # 10000000000.
Definition dates_by_mjd (l : line) (t : Q) : Prop := hour_year (num l 0) t.
Definition dates_by_year (l : line) (t : Q) : Prop := t = num l 1.
(** the reader [f] takes one date from each line with more than [keep] numbers, which must have more than [need]: time by
    [when], values [val]; months are the nearest ones, adjusted.  Shorter lines and files without header end are errors. *)
Definition reads (f : list line -> res slr) (keep need : nat) (when : line -> Q -> Prop) (val : line -> list Q) : Prop :=
  (forall hdr last data, is_file hdr last -> (forall l, In l data -> longer keep l = true -> longer need l = true) -> filter (longer keep) data <> [] ->
     exists r, f (hdr ++ last :: data) = Ok r /\ s_vals r = map val (filter (longer keep) data) /\ Forall2 when (filter (longer keep) data) (s_time r) /\
       exists g, s_month r = adjust_months g /\ Forall2 nearest_month (s_time r) g) /\
  (forall hdr last data l, is_file hdr last -> In l data -> longer keep l = true -> longer need l = false -> f (hdr ++ last :: data) = Err IndexError) /\
  (forall ls, Forall (fun l => h_end l = false) ls -> f ls = Err IndexError).

Lemma table_reads (row : line -> res dated) keep need when val (fin : list dated -> res slr) :
  (forall l, longer keep l = true -> longer need l = true -> exists t, row l = Ok (t, val l) /\ when l t) ->
  (forall l, longer keep l = true -> longer need l = false -> row l = Err IndexError) ->
  (forall r, r <> [] -> fin r = Ok (with_months round_month r)) ->
  reads (fun ls => do r <- table (count_gt keep) row true ls; fin r) keep need when val.
Proof.
  intros A B C. assert (FE : forall data, filter (count_gt keep) data = filter (longer keep) data) by reflexivity. unfold table. cbn [body]. split; [|split].
  - intros hdr last data F L NE. rewrite skip_ok by exact F. cbn [bind]. rewrite FE.
    destruct (mapM_ex row (filter (longer keep) data)) as [out E].
    { intros l Hl. apply filter_In in Hl. destruct (A l) as (t & Et & _); [tauto|apply L; tauto|]. eauto. }
    rewrite E. cbn [bind]. apply mapM_F2 in E. rewrite C.
    2:{ intros ->. inversion E. congruence. }
    eexists. split; [reflexivity|]. unfold with_months. cbn [s_vals s_time s_month].
    assert (W : Forall (fun l => longer keep l = true /\ longer need l = true) (filter (longer keep) data)) by (apply Forall_forall; intros l Hl; apply filter_In in Hl; split; [tauto|apply L; tauto]).
    revert E W. generalize (filter (longer keep) data). clear - A. intros ls E. induction E as [|a b l o H E IH]; intros W.
    + split; [reflexivity|]. split; [constructor|]. exists []. split; [reflexivity|constructor].
    + inversion W as [|? ? [W1 W2] W3]; subst. destruct (IH W3) as (I1 & I2 & g & I3 & I4). destruct (A a W1 W2) as (t & Et & Wt). assert (b = (t, val a)) by congruence. subst b.
      cbn [map fst snd]. split; [congruence|]. split; [constructor; auto|]. eexists. split; [reflexivity|]. constructor; [apply round_near|].
      clear. induction o as [|[p q] o IH]; cbn [map]; constructor; auto. apply round_near.
  - intros hdr last data l F I K N. rewrite skip_ok by exact F. cbn [bind]. rewrite FE.
    rewrite (mapM_err _ _ IndexError); [reflexivity| |].
    + intros a e Ha E. apply filter_In in Ha. destruct (longer need a) eqn:Q; [destruct (A a) as (t & Et & _); [tauto|auto|congruence]|rewrite B in E; [congruence|tauto|auto]].
    + exists l. split; [apply filter_In; auto|]. intros b. rewrite B by auto. discriminate.
  - intros ls F. assert (X : skip_header ls = Err IndexError) by (induction F as [|a l H F IH]; cbn [skip_header]; [|rewrite H]; auto). rewrite X. reflexivity.
Qed.
Ltac cols := repeat match goal with |- context [col ?l (Zpos ?p)] => change (col l (Zpos p)) with (col l (Z.of_nat (Pos.to_nat p))); let n := eval compute in (Pos.to_nat p) in change (Pos.to_nat p) with n | |- context [col ?l 0] => change (col l 0) with (col l (Z.of_nat 0)) end.
Ltac good_row := unfold longer; intros l K N; cols; rewrite !col_ok by lia; cbn [bind]; eexists; split; [reflexivity|]; unfold dates_by_mjd, dates_by_year; auto using mjd_year_ok.
Ltac bad_row := unfold longer; intros l K N; cols; repeat match goal with |- context [col l (Z.of_nat ?k)] => let H := fresh in destruct (col_cases l k) as [[-> H]|[-> H]]; cbn [bind]; auto; try (exfalso; lia) end.
(** C30: TN-14 lines with more than seven numbers, GravIS lines with any; C50; C21/S21 or C22/S22; geocenter *)
Theorem C82_columns :
  (forall mean, reads (C30 C30_TN14 mean true) 7 7 dates_by_mjd (fun l => [num l 5; num l 7 * e_10]%Q)) /\
  (forall mean, reads (C30 C30_GRAVIS mean true) 0 7 dates_by_year (fun l => [num l 5; num l 7 * e_10]%Q)) /\
  reads (C50_GSFC true) 7 12 dates_by_mjd (fun l => [num l 10; num l 12 * e_10]%Q) /\
  (forall argsort ORDER DATE, reads (CS2 argsort CS2_GRAVIS ORDER DATE true) 0 13 dates_by_year (fun l => [num l 8; num l 11; num l 10 * e_10; num l 13 * e_10]%Q)) /\
  reads (from_gravis true) 0 10 dates_by_year (fun l => [num l 2; num l 5; num l 8; num l 4 * e_10; num l 7 * e_10; num l 10 * e_10]%Q).
Proof.
  split; [|split; [|split; [|split]]]; intros.
  - refine (table_reads (row_mjd 5 7) 7 7 _ _ (fun r => match r with [] => Err OtherExn | _ => Ok (with_months round_month r) end) _ _ _); unfold row_mjd.
    + good_row.
    + bad_row.
    + intros [|x r] H; [congruence|reflexivity].
  - refine (table_reads (row_year 5 7) 0 7 _ _ (fun r => Ok (with_months round_month r)) _ _ _); unfold row_year.
    + good_row.
    + bad_row.
    + reflexivity.
  - refine (table_reads (row_mjd 10 12) 7 12 _ _ (fun r => match r with [] => Err OtherExn | _ => Ok (with_months round_month r) end) _ _ _); unfold row_mjd.
    + good_row.
    + bad_row.
    + intros [|x r] H; [congruence|reflexivity].
  - refine (table_reads CS2_gravis_row 0 13 _ _ (fun r => Ok (with_months round_month r)) _ _ _); unfold CS2_gravis_row.
    + good_row.
    + bad_row.
    + reflexivity.
  - refine (table_reads gravis_row 0 10 _ _ (fun r => Ok (with_months round_month r)) _ _ _); unfold gravis_row.
    + good_row.
    + bad_row.
    + reflexivity.
Qed.
(** files without usable lines: C30 and C50 fail, the GravIS readers return nothing; unknown C21/C22 files fail *)
Theorem C82_empty : forall hdr last data mean argsort ORDER DATE HEADER ls, is_file hdr last -> Forall (fun l => nums l = []) data ->
  C30 C30_TN14 mean true (hdr ++ last :: data) = Err OtherExn /\ C50_GSFC true (hdr ++ last :: data) = Err OtherExn /\
  C30 C30_GRAVIS mean true (hdr ++ last :: data) = Ok (mkslr [] [] []) /\ from_gravis true (hdr ++ last :: data) = Ok (mkslr [] [] []) /\
  CS2 argsort CS2_other ORDER DATE HEADER ls = Err KeyError.
Proof.
  intros hdr last data mean argsort ORDER DATE HEADER ls F E.
  assert (X : forall n, filter (count_gt n) data = []) by (intros n; induction E as [|a l H E IH]; cbn [filter]; [auto|]; unfold count_gt at 1; rewrite H; cbn; auto).
  unfold C30, C50_GSFC, from_gravis, table. cbn [body]. rewrite skip_ok by exact F. cbn [bind]. rewrite !X. cbn. auto.
Qed.
(** Refuted: C50 lines are selected by more than 7 numbers but 13 are needed *)
Theorem C82_c50_refuted : exists hdr last l, is_file hdr last /\ longer 7 l = true /\ C50_GSFC true (hdr ++ [last; l]) = Err IndexError.
Proof.
  exists [], (mkline true [] false false), (mkline false (repeat 0%Q 8) false false). split; [split; [constructor|reflexivity]|]. split; [reflexivity|vm_compute; reflexivity].
Qed.
(** LARES: value in units of 1e-10 about the mean, no errors; month of the date.  Refuted: one row only *)
Theorem C82_lares : forall mean rows, (2 <= length rows)%nat -> (forall r, In r rows -> (2 <= length r)%nat) -> forall hd,
  exists q, lares mean (hd :: rows) = Ok q /\ s_time q = map (fun r => nth 0 r 0%Q) rows /\ s_month q = adjust_months (map (fun r => calendar_to_grace (nth 0 r 0%Q) 1) rows) /\
    s_vals q = map (fun r => [e_10 * nth 1 r 0 + mean; 0]%Q) rows.
Proof.
  intros mean rows L R hd. destruct rows as [|a [|b rows]]; cbn [length] in L; try lia. cbn [lares]. set (rs := a :: b :: rows) in *.
  rewrite (mapM_map _ (fun x => (nth 0 x 0, [e10 * nth 1 x 0 + mean; 0])%Q)).
  - cbn [bind]. eexists. split; [reflexivity|]. unfold with_months. cbn [s_time s_month s_vals]. rewrite !map_map. auto.
  - intros x Hx. specialize (R x Hx). change 0 with (Z.of_nat 0) at 1. change 1 with (Z.of_nat 1) at 1. rewrite !(py_get_ok x _ 0%Q) by lia. reflexivity.
Qed.
Theorem C82_lares_single_refuted : forall mean hd r, lares mean [hd; r] = Err IndexError.
Proof. reflexivity. Qed.

(** ** Weekly files *)
(** np.argsort returns some sorting permutation *)
Definition sorts (f : list Q -> list nat) : Prop := forall l, Permutation (f l) (seq 0 (length l)) /\
  forall i j, (i < j < length l)%nat -> (nth (nth i (f l) 0%nat) l 0 <= nth (nth j (f l) 0%nat) l 0)%Q.
(** day j (0..6) of week i *)
Definition day_of (t : list Q) (k : nat) : Q := (nth (k / 7) t 0 + (inject_Z (Z.of_nat (k mod 7)) - (7 # 2)) / (1461 # 4))%Q.
Definition value_of (d : list Q) (k : nat) : Q := nth (k / 7) d 0%Q.
Definition average (l : list Q) (x : Q) : Prop := (x * inject_Z (Z.of_nat (length l)) == fold_right Qplus 0 l)%Q.
(** the days used for date D: n of them, all at least as near as the others *)
Definition nearest_days (t : list Q) (N : nat) (D : Q) (sel : list nat) : Prop :=
  NoDup sel /\ length sel = Nat.min N (7 * length t) /\ (forall k, In k sel -> (k < 7 * length t)%nat) /\
  forall k k', In k sel -> (k' < 7 * length t)%nat -> ~ In k' sel -> (Qabs (day_of t k - D) <= Qabs (day_of t k' - D))%Q.
Lemma seven k : (k < 7)%nat -> k = 0%nat \/ k = 1%nat \/ k = 2%nat \/ k = 3%nat \/ k = 4%nat \/ k = 5%nat \/ k = 6%nat.
Proof. lia. Qed.
Lemma daily_ok t : length (daily t) = (7 * length t)%nat /\ forall k, (k < 7 * length t)%nat -> nth k (daily t) 0%Q = day_of t k.
Proof.
  unfold day_of. induction t as [|x t [L N]]; [split; [reflexivity|cbn; lia]|]. unfold daily in *. cbn [flat_map].
  set (w := map _ [0; 1; 2; 3; 4; 5; 6]). assert (Lw : length w = 7%nat) by reflexivity. rewrite app_length, L, Lw. cbn [length]. split; [lia|]. intros k Hk.
  destruct (Nat.lt_ge_cases k 7) as [H|H].
  - rewrite app_nth1 by lia. rewrite Nat.div_small, Nat.mod_small by lia. cbn [nth]. subst w. clear - H. destruct (seven k H) as [->|[->|[->|[->|[->|[->| ->]]]]]]; reflexivity.
  - rewrite app_nth2 by lia. rewrite Lw. rewrite N by lia. replace k with (k - 7 + 1 * 7)%nat at 3 4 by lia. rewrite Nat.div_add, Nat.mod_add by lia. rewrite Nat.add_1_r. reflexivity.
Qed.
Lemma daily_value_ok d : length (daily_value d) = (7 * length d)%nat /\ forall k, (k < 7 * length d)%nat -> nth k (daily_value d) 0%Q = value_of d k.
Proof.
  unfold value_of. induction d as [|x d [L N]]; [split; [reflexivity|cbn; lia]|]. unfold daily_value in *. cbn [flat_map]. rewrite app_length, L, repeat_length. cbn [length]. split; [lia|]. intros k Hk.
  destruct (Nat.lt_ge_cases k 7) as [H|H].
  - rewrite app_nth1 by (rewrite repeat_length; lia). rewrite Nat.div_small by lia. cbn [nth]. clear - H. destruct (seven k H) as [->|[->|[->|[->|[->|[->| ->]]]]]]; reflexivity.
  - rewrite app_nth2 by (rewrite repeat_length; lia). rewrite repeat_length, N by lia. replace k with (k - 7 + 1 * 7)%nat at 2 by lia. rewrite Nat.div_add by lia. rewrite Nat.add_1_r. reflexivity.
Qed.
Lemma qmean_ok l : l <> [] -> exists x, qmean l = Ok x /\ average l x.
Proof.
  intros H. destruct l as [|a l]; [congruence|]. unfold qmean. eexists. split; [reflexivity|]. unfold average, qsum. set (s := fold_right _ _ _).
  rewrite Qmult_comm. apply Qmult_div_r. intros E. unfold Qeq in E. cbn in E. lia.
Qed.
Lemma qsq_abs (a b : Q) : (a ^ 2 <= b ^ 2 -> Qabs a <= Qabs b)%Q.
Proof.
  intros H. destruct (Qlt_le_dec (Qabs b) (Qabs a)) as [L|L]; [exfalso|exact L].
  assert (X : forall q : Q, (q ^ 2 == Qabs q * Qabs q)%Q) by (intros q; apply Qabs_case; intros; cbn; ring). rewrite !X in H.
  pose proof (Qabs_nonneg b). set (p := Qabs a) in *. set (q := Qabs b) in *. clearbody p q. assert (0 < p)%Q by lra. assert (q * q <= q * p)%Q by (apply Qmult_le_compat_nonneg; split; lra).
  assert (q * p < p * p)%Q by (apply Qmult_lt_compat_r; lra). lra.
Qed.
Lemma nth_map_seq {A B} (f : B -> A) (l : list B) d0 d i : (i < length l)%nat -> nth i (map f l) d = f (nth i l d0).
Proof. revert i. induction l as [|x l IH]; cbn [length map nth]; intros i H; [lia|]. destruct i; [reflexivity|]. apply IH. lia. Qed.
Lemma select_ok f t N D : sorts f -> nearest_days t N D (firstn N (f (map (fun x => (x - D) ^ 2)%Q (daily t)))).
Proof.
  intros S. destruct (daily_ok t) as [L NT]. set (ds := map _ (daily t)). assert (Ld : length ds = (7 * length t)%nat) by (unfold ds; rewrite map_length; auto).
  destruct (S ds) as [P O]. rewrite Ld in *. set (o := f ds) in *. assert (Lo : length o = (7 * length t)%nat) by (rewrite (Permutation_length P), seq_length; auto).
  assert (ND : NoDup o) by (apply (Permutation_NoDup (Permutation_sym P)), seq_NoDup).
  assert (IN : forall k, In k o <-> (k < 7 * length t)%nat) by (intros k; rewrite (Permutation_in' eq_refl P), in_seq; lia).
  assert (SP : o = firstn N o ++ skipn N o) by (symmetry; apply firstn_skipn).
  split; [|split; [|split]].
  - rewrite SP in ND. clear - ND. induction (firstn N o) as [|a l IH]; [constructor|]. inversion ND; subst. constructor; [intros X; apply H1, in_or_app; auto|auto].
  - rewrite firstn_length, Lo. reflexivity.
  - intros k H. apply IN. rewrite SP. apply in_or_app. auto.
  - intros k k' Hk Hk' NI. apply IN in Hk'. rewrite SP in Hk'. apply in_app_or in Hk'. destruct Hk' as [Hk'|Hk']; [contradiction|].
    apply (In_nth _ _ 0%nat) in Hk. destruct Hk as (i & Li & Ei). apply (In_nth _ _ 0%nat) in Hk'. destruct Hk' as (j & Lj & Ej). rewrite firstn_length in Li. rewrite skipn_length in Lj.
    assert (Ei' : nth i o 0%nat = k) by (rewrite SP, app_nth1 by (rewrite firstn_length; lia); exact Ei).
    assert (Ej' : nth (N + j) o 0%nat = k') by (rewrite SP, app_nth2 by (rewrite firstn_length; lia); rewrite firstn_length; replace (N + j - Nat.min N (length o))%nat with j by lia; exact Ej).
    specialize (O i (N + j)%nat ltac:(lia)). rewrite Ei', Ej' in O.
    assert (K : (k < 7 * length t)%nat) by (apply IN; rewrite <- Ei'; apply nth_In; lia). assert (K' : (k' < 7 * length t)%nat) by (apply IN; rewrite <- Ej'; apply nth_In; lia).
    assert (E : forall q, (q < 7 * length t)%nat -> nth q ds 0%Q = ((day_of t q - D) ^ 2)%Q).
    { intros q Hq. unfold ds. rewrite (nth_map_seq _ _ 0%Q) by lia. rewrite NT by lia. reflexivity. }
    rewrite !E in O by assumption. apply qsq_abs. exact O.
Qed.
Lemma week_at_ok f N t d D : sorts f -> t <> [] -> length d = length t -> (1 <= N)%nat -> exists tm x sel, week_at f N (daily t) (daily_value d) D = Ok (tm, [x]) /\
  nearest_days t N D sel /\ average (map (day_of t) sel) tm /\ average (map (value_of d) sel) x /\ sel = firstn N (f (map (fun x => (x - D) ^ 2)%Q (daily t))).
Proof.
  intros S T Ld HN. pose proof (select_ok f t N D S) as H. unfold week_at. set (sel := firstn N _) in *. destruct H as (H1 & H2 & H3 & H4).
  destruct (daily_ok t) as [L NT]. destruct (daily_value_ok d) as [L' NV]. assert (NE : sel <> []) by (intros E; rewrite E in H2; cbn in H2; destruct t; [congruence|cbn [length] in H2; lia]).
  rewrite (mapM_map _ (day_of t)) by (intros k Hk; rewrite (py_get_ok _ _ 0%Q) by (rewrite L; auto); rewrite NT by auto; reflexivity). cbn [bind].
  destruct (qmean_ok (map (day_of t) sel)) as (tm & -> & A1); [destruct sel; [congruence|discriminate]|]. cbn [bind].
  rewrite (mapM_map _ (value_of d)) by (intros k Hk; rewrite (py_get_ok _ _ 0%Q) by (rewrite L', Ld; auto); rewrite NV by (rewrite Ld; auto); reflexivity). cbn [bind].
  destruct (qmean_ok (map (value_of d) sel)) as (x & -> & A2); [destruct sel; [congruence|discriminate]|]. cbn [bind].
  exists tm, x, sel. repeat split; auto.
Qed.
(** for each requested date: the average of the N nearest days, and their mean time; months by the mean time, adjusted *)
Theorem C82_weekly : forall f t d DATE N, sorts f -> t <> [] -> length d = length t -> (1 <= N)%nat ->
  exists r, convert_weekly f t d DATE N = Ok r /\ s_month r = adjust_months (map (fun u => calendar_to_grace u 1) (s_time r)) /\ length (s_vals r) = length DATE /\ length (s_time r) = length DATE /\
    forall i, (i < length DATE)%nat -> exists sel x, nearest_days t N (nth i DATE 0%Q) sel /\ average (map (day_of t) sel) (nth i (s_time r) 0%Q) /\
      nth i (s_vals r) [] = [x] /\ average (map (value_of d) sel) x.
Proof.
  intros f t d DATE N S T Ld HN. unfold convert_weekly. destruct (mapM_ex (week_at f N (daily t) (daily_value d)) DATE) as [out E].
  { intros D _. destruct (week_at_ok f N t d D S T Ld HN) as (tm & x & sel & E & _). eauto. }
  rewrite E. cbn [bind]. eexists. split; [reflexivity|]. unfold with_months. cbn [s_month s_vals s_time]. rewrite map_map. split; [reflexivity|].
  apply mapM_F2 in E. assert (L : length DATE = length out) by (clear - E; induction E; cbn [length]; congruence). rewrite !map_length. split; [auto|]. split; [auto|].
  intros i Hi. assert (X : week_at f N (daily t) (daily_value d) (nth i DATE 0%Q) = Ok (nth i out (0%Q, []))).
  { clear - E Hi. revert i Hi. induction E as [|a b l o H E IH]; cbn [length]; intros i Hi; [lia|]. destruct i; [exact H|]. apply IH. lia. }
  destruct (week_at_ok f N t d (nth i DATE 0%Q) S T Ld HN) as (tm & x & sel & E' & P1 & P2 & P3 & _). exists sel, x. rewrite X in E'. injection E' as E'.
  assert (N1 : nth i (map fst out) 0%Q = fst (nth i out (0%Q, []))) by exact (map_nth fst out (0%Q, []) i).
  assert (N2 : nth i (map snd out) [] = snd (nth i out (0%Q, []))) by exact (map_nth snd out (0%Q, []) i). rewrite N1, N2, E'. cbn [fst snd]. auto.
Qed.
Lemma average_bounds l x lo hi : l <> [] -> average l x -> (forall a, In a l -> lo <= a <= hi)%Q -> (lo <= x <= hi)%Q.
Proof.
  intros NE A H. unfold average in A. assert (B : (lo * inject_Z (Z.of_nat (length l)) <= fold_right Qplus 0 l <= hi * inject_Z (Z.of_nat (length l)))%Q).
  { clear - H. induction l as [|a l IH]; [cbn [length fold_right]; change (inject_Z (Z.of_nat 0)) with 0%Q; split; lra|]. destruct IH as [I1 I2]; [intros; apply H; right; auto|]. specialize (H a (or_introl eq_refl)). cbn [length fold_right]. rewrite Nat2Z.inj_succ. unfold Z.succ. rewrite inj_plus1. split; lra. }
  rewrite <- A in B. assert (P : (0 < inject_Z (Z.of_nat (length l)))%Q) by (change 0%Q with (inject_Z 0); rewrite <- Zlt_Qlt; destruct l; [congruence|cbn [length]; lia]).
  destruct B as [B1 B2]. split; [apply (Qmult_le_r _ _ _ P); auto|apply (Qmult_le_r _ _ _ P); auto].
Qed.
(** so the result stays within the bounds of the weekly values (a constant series is reproduced) *)
Theorem C82_weekly_bounds : forall f t d DATE N lo hi, sorts f -> t <> [] -> length d = length t -> (1 <= N)%nat -> (forall a, In a d -> lo <= a <= hi)%Q ->
  exists r, convert_weekly f t d DATE N = Ok r /\ Forall (fun v => exists x, v = [x] /\ (lo <= x <= hi)%Q) (s_vals r).
Proof.
  intros f t d DATE N lo hi S T Ld HN B. destruct (C82_weekly f t d DATE N S T Ld HN) as (r & E & _ & L & _ & H). exists r. split; [exact E|].
  apply Forall_forall. intros v Hv. apply (In_nth _ _ []) in Hv. destruct Hv as (i & Hi & <-). destruct (H i ltac:(lia)) as (sel & x & (P1 & P2 & P3 & _) & _ & -> & A). exists x. split; [reflexivity|].
  apply (average_bounds (map (value_of d) sel) x lo hi); [|exact A|].
  - intros X. apply map_eq_nil in X. rewrite X in P2. cbn [length] in P2. destruct t; [congruence|cbn [length] in P2; lia].
  - intros a Ha. apply in_map_iff in Ha. destruct Ha as (k & <- & Hk). apply B. unfold value_of. apply nth_In. rewrite Ld. apply Nat.div_lt_upper_bound; [lia|]. apply P3. exact Hk.
Qed.
(** Refuted: the seven days of a week are not centred on its date, their mean is half a day early *)
Theorem C82_week_center_refuted : forall t i, (i < length t)%nat ->
  exists m, average (map (fun j => day_of t (7 * i + j)) [0; 1; 2; 3; 4; 5; 6]%nat) m /\ (m == nth i t 0 - (1 # 2) / (1461 # 4))%Q.
Proof.
  intros t i Hi. exists (nth i t 0 - (1 # 2) / (1461 # 4))%Q. split; [|reflexivity]. unfold average. cbn [map length fold_right].
  assert (E : forall j, (j < 7)%nat -> day_of t (7 * i + j) = (nth i t 0 + (inject_Z (Z.of_nat j) - (7 # 2)) / (1461 # 4))%Q).
  { intros j Hj. unfold day_of. rewrite (Nat.mul_comm 7 i), Nat.div_add_l, (Nat.add_comm (i * 7)), Nat.mod_add by lia. rewrite (Nat.div_small j), Nat.mod_small, Nat.add_0_r by lia. reflexivity. }
  rewrite !E by lia. set (x := nth i t 0%Q). clearbody x. unfold inject_Z. cbn [Z.of_nat Pos.of_succ_nat Pos.succ]. field.
Qed.
(** order-1 and order-2 coefficients of degree two: cosine and sine series averaged over the same days, zero errors *)
Theorem C82_two_series : forall f t c s ORDER DATE HEADER ls, sorts f -> t <> [] -> length c = length t -> length s = length t ->
  map nums ls = map (fun i => [nth i t 0; nth i c 0; nth i s 0]%Q) (seq 0 (length t)) ->
  exists r, CS2 f CS2_week ORDER DATE HEADER ls = Ok r /\ s_month r = adjust_months (map (fun u => calendar_to_grace u 1) (s_time r)) /\ length (s_vals r) = length DATE /\ length (s_time r) = length DATE /\
    forall i, (i < length DATE)%nat -> exists sel x y, nearest_days t 28 (nth i DATE 0%Q) sel /\ average (map (day_of t) sel) (nth i (s_time r) 0%Q) /\
      nth i (s_vals r) [] = [x; y; 0; 0]%Q /\ average (map (value_of c) sel) x /\ average (map (value_of s) sel) y.
Proof.
  intros f t c s ORDER DATE HEADER ls S T Lc Ls E0. cbn [CS2]. unfold loadtxt. rewrite E0.
  replace (forallb _ _) with true by (symmetry; apply forallb_forall; intros r Hr; apply in_map_iff in Hr; destruct Hr as (k & <- & _); reflexivity). cbn [bind]. rewrite !map_map. cbn [nth].
  assert (MS : forall l : list Q, length l = length t -> map (fun i => nth i l 0%Q) (seq 0 (length t)) = l).
  { intros l L. apply (nth_ext _ _ 0%Q 0%Q); [rewrite map_length, seq_length; auto|]. intros k Hk. rewrite map_length, seq_length in Hk. rewrite (nth_map_seq _ _ 0%nat) by (rewrite seq_length; auto). rewrite seq_nth by auto. reflexivity. }
  rewrite !MS by auto. unfold CS2_weekly.
  assert (W : forall D, exists tm x y sel, week_at2 f 28 (daily t) (daily_value c) (daily_value s) D = Ok (tm, [x; y; 0; 0]%Q) /\ nearest_days t 28 D sel /\ average (map (day_of t) sel) tm /\ average (map (value_of c) sel) x /\ average (map (value_of s) sel) y).
  { intros D. destruct (week_at_ok f 28 t c D S T Lc ltac:(lia)) as (tm & x & sel & E & P1 & P2 & P3 & P4). destruct (week_at_ok f 28 t s D S T Ls ltac:(lia)) as (tm' & y & sel' & E' & Q1 & Q2 & Q3 & Q4).
    exists tm, x, y, sel. unfold week_at2. rewrite E, E'. cbn [bind fst snd hd]. rewrite Q4, <- P4 in Q3. auto. }
  destruct (mapM_ex (week_at2 f 28 (daily t) (daily_value c) (daily_value s)) DATE) as [out E]; [intros D _; destruct (W D) as (tm & x & y & sel & H & _); eauto|].
  rewrite E. cbn [bind]. eexists. split; [reflexivity|]. unfold with_months. cbn [s_month s_vals s_time]. rewrite map_map. split; [reflexivity|].
  apply mapM_F2 in E. assert (L : length DATE = length out) by (clear - E; induction E; cbn [length]; congruence). rewrite !map_length. split; [auto|]. split; [auto|].
  intros i Hi. assert (X : week_at2 f 28 (daily t) (daily_value c) (daily_value s) (nth i DATE 0%Q) = Ok (nth i out (0%Q, []))).
  { clear - E Hi. revert i Hi. induction E as [|a b l o H E IH]; cbn [length]; intros i Hi; [lia|]. destruct i; [exact H|]. apply IH. lia. }
  destruct (W (nth i DATE 0%Q)) as (tm & x & y & sel & E' & P). exists sel, x, y. rewrite X in E'. injection E' as E'.
  assert (N1 : nth i (map fst out) 0%Q = fst (nth i out (0%Q, []))) by exact (map_nth fst out (0%Q, []) i).
  assert (N2 : nth i (map snd out) [] = snd (nth i out (0%Q, []))) by exact (map_nth snd out (0%Q, []) i). rewrite N1, N2, E'. cbn [fst snd]. tauto.
Qed.
(** CSR files of degree two: the dealiasing columns are removed *)
Theorem C82_csr : forall f ORDER DATE HEADER ls, (forall l, In l ls -> length (nums l) = 9%nat) ->
  exists r, CS2 f CS2_CSR ORDER DATE HEADER ls = Ok r /\ s_time r = map (fun l => num l 0) ls /\ s_month r = adjust_months (map (fun l => calendar_to_grace (num l 0) 1) ls) /\
    s_vals r = map (fun l => [num l 1 - num l 5 * e_10; num l 2 - num l 6 * e_10; num l 3 * e_10; num l 4 * e_10]%Q) ls.
Proof.
  intros f ORDER DATE HEADER ls H. cbn [CS2]. unfold loadtxt. replace (forallb _ _) with true by (symmetry; apply forallb_forall; intros r Hr; apply in_map_iff in Hr; destruct Hr as (k & <- & Hk); rewrite H by auto; reflexivity).
  cbn [bind]. eexists. split; [reflexivity|]. unfold with_months. cbn [s_time s_month s_vals]. rewrite !map_map. cbn [fst snd]. split; [reflexivity|]. split; reflexivity.
Qed.
(** a sorting function exists (insertion sort of the indices) *)
Fixpoint ins (l : list Q) (i : nat) (p : list nat) : list nat :=
  match p with [] => [i] | j :: r => if Qle_bool (nth i l 0%Q) (nth j l 0%Q) then i :: p else j :: ins l i r end.
Lemma ins_perm l i p : Permutation (ins l i p) (i :: p).
Proof. induction p as [|j p IH]; cbn [ins]; [auto|]. destruct (Qle_bool _ _); [auto|]. rewrite IH. apply perm_swap. Qed.
Lemma ins_sorted l i p : StronglySorted (fun a b => nth a l 0 <= nth b l 0)%Q p -> StronglySorted (fun a b => nth a l 0 <= nth b l 0)%Q (ins l i p).
Proof.
  intros S. induction S as [|j p S IH F]; cbn [ins]; [constructor; constructor|]. destruct (Qle_bool _ _) eqn:E.
  - apply Qle_bool_iff in E. constructor; [constructor; auto|]. constructor; [exact E|]. eapply Forall_impl; [|exact F]. intros a H. cbn beta in *. eapply Qle_trans; eauto.
  - constructor; [exact IH|]. apply (Permutation_Forall (Permutation_sym (ins_perm l i p))). constructor; [|exact F].
    destruct (Qlt_le_dec (nth j l 0%Q) (nth i l 0%Q)) as [H|H]; [apply Qlt_le_weak; exact H|]. apply Qle_bool_iff in H. congruence.
Qed.
Lemma sorts_exists : sorts (fun l => fold_right (ins l) [] (seq 0 (length l))).
Proof.
  intros l. assert (P : forall p, Permutation (fold_right (ins l) [] p) p) by (induction p; cbn [fold_right]; [auto|]; rewrite ins_perm; auto).
  split; [apply P|]. assert (S : forall p, StronglySorted (fun a b => nth a l 0 <= nth b l 0)%Q (fold_right (ins l) [] p)) by (induction p; cbn [fold_right]; [constructor|apply ins_sorted; auto]).
  assert (L : length (fold_right (ins l) [] (seq 0 (length l))) = length l) by (rewrite (Permutation_length (P _)), seq_length; reflexivity).
  specialize (S (seq 0 (length l))). revert S L. generalize (fold_right (ins l) [] (seq 0 (length l))). clear P. intros p S L. rewrite <- L. clear L.
  assert (X : forall i j, (i < j < length p)%nat -> (nth (nth i p 0%nat) l 0 <= nth (nth j p 0%nat) l 0)%Q); [|exact X].
  induction S as [|a p S IH F]; cbn [length]; intros i j H; [lia|]. destruct j as [|j]; [lia|]. destruct i as [|i]; cbn [nth]; [|apply IH; lia]. rewrite Forall_forall in F. apply F. apply nth_In. lia.
Qed.
(** two weeks, twenty-eight days asked for, and tables that meet the other hypotheses *)
Example C82_nonvacuous : let f := fun l => fold_right (ins l) [] (seq 0 (length l)) in let l := mkline false (repeat 1%Q 14) false false in
  is_file [] (mkline true [] false false) /\ longer 7 l = true /\ sorts f /\ [1; 2]%Q <> [] /\ length [3; 4]%Q = length [1; 2]%Q /\
  nearest_days [2005; 2006]%Q 3 2006 (firstn 3 (f (map (fun x => (x - 2006) ^ 2)%Q (daily [2005; 2006]%Q)))).
Proof. cbv zeta. split; [split; [constructor|reflexivity]|]. split; [reflexivity|]. split; [exact sorts_exists|]. split; [discriminate|]. split; [reflexivity|]. apply (select_ok _ _ _ _ sorts_exists). Qed.
