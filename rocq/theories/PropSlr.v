(** C81 SLR C20 readers (SLR/C20.py), months of dated rows. *)
From Coq Require Import QArith Qround Qabs Lqa Lia ZifyBool ZArith List Sorting.
From Verif Require Import Base TimeModel TimeSpec TimeProofs TimeProofs2 AdjustProofs DecimalProofs SlrModel.
Import ListNotations.
Open Scope Z_scope.

(** ** Specification *)
(** a file: header lines, the last header line, then data lines *)
Definition is_file (hdr : list line) (last : line) : Prop := Forall (fun l => h_end l = false) hdr /\ h_end last = true.
(** GRACE month in which a decimal year lies when rounded to the nearest twelfth *)
Definition nearest_month (t : Q) (g : Z) : Prop := (Qabs (12 * (t - 2002) + 1 - inject_Z g) <= 1 # 2)%Q.
(** number k of a line *)
Definition num (l : line) (k : nat) : Q := nth k (nums l) 0%Q.
(** decimal year of a modified Julian day, to the whole hour *)
Definition hour_year (mjd t : Q) : Prop := forall x c, valid_greg x -> valid_tod c -> 2299161 <= gday x -> dy x mod 4000 <> 0 ->
  (mjd == inject_Z (gday x - 2400001) + day_fraction c)%Q ->
  (t == inject_Z (dy x) + (inject_Z (gday x - gday (mkdate (dy x) 1 1)) + inject_Z (th c) / 24) / inject_Z (gday (mkdate (dy x + 1) 1 1) - gday (mkdate (dy x) 1 1)))%Q.

(** ** Lemmas *)
Open Scope Q_scope.
Lemma inj_plus1 k : inject_Z (k + 1) == inject_Z k + 1.
Proof. rewrite inject_Z_plus. reflexivity. Qed.
Lemma inj_plus2 k : inject_Z (k + 2) == inject_Z k + 2.
Proof. rewrite inject_Z_plus. reflexivity. Qed.
Lemma qround_near (x : Q) (k : Z) : inject_Z k - (1#2) < x -> x < inject_Z k + (1#2) -> Qround_even x = k.
Proof.
  intros A B. unfold Qround_even. pose proof (Qfloor_le x) as F. pose proof (Qlt_floor x) as L. rewrite inj_plus1 in L.
  set (f := Qfloor x) in *. assert (C : (f = k \/ k = f + 1)%Z).
  { assert (inject_Z f < inject_Z (k+1)) by (rewrite inj_plus1; lra). assert (inject_Z k < inject_Z (f+2)) by (rewrite inj_plus2; lra).
    rewrite <- Zlt_Qlt in *. lia. }
  destruct C as [-> | ->].
  - destruct (Qcompare_spec (x - inject_Z k) (1#2)); [lra|reflexivity|lra].
  - rewrite inj_plus1 in *. destruct (Qcompare_spec (x - inject_Z f) (1#2)); [lra|lra|lia].
Qed.
Lemma qfloor_in (x : Q) (k : Z) : inject_Z k <= x -> x < inject_Z k + 1 -> Qfloor x = k.
Proof.
  intros A B. pose proof (Qfloor_le x) as F. pose proof (Qlt_floor x) as L.
  assert (inject_Z (Qfloor x) < inject_Z (k+1)) by (rewrite inj_plus1; lra). assert (inject_Z k < inject_Z (Qfloor x + 1)) by lra.
  rewrite <- Zlt_Qlt in *. lia.
Qed.
(** 12 (t - 2002) + 1 for the decimal year t of a date: bounds by days *)
Lemma month_bounds (x : date) (t : tod) : valid_greg x -> valid_tod t -> (dy x mod 4000 <> 0)%Z ->
  let g := inject_Z (12 * (dy x - 2002) + dm x - 1) in let u := 12 * (decimal x t - 2002) in
  ((dd x <= 14)%Z -> g - (1#2) < u /\ u < g + (1#2)) /\ ((19 <= dd x)%Z -> g + (1#2) < u /\ u < g + (3#2)) /\
  ((3 <= dd x <= 30)%Z -> g <= u /\ u < g + 1).
Proof.
  intros V T Y g u. pose proof (decimal_exact x t V Y) as D. fold (decimal x t) in D.
  assert (F : 0 <= day_fraction t /\ day_fraction t < 1).
  { destruct T as (A & B & C & E). unfold day_fraction. rewrite !Zle_Qle in *. destruct A, B. change (inject_Z 0) with 0 in *. change (inject_Z 23) with 23 in *. change (inject_Z 59) with 59 in *.
    unfold Qdiv. change (/24) with (1#24). change (/1440) with (1#1440). change (/86400) with (1#86400). lra. }
  set (fr := day_fraction t) in *. clearbody fr. rewrite year_len_eq in D.
  destruct x as [y m d]; unfold valid_greg in V; cbn [dy dm dd] in *. destruct V as [Hm Hd].
  assert (G : (gday (mkdate y m d) - gday (year_start y) = d - 1 + before_month (greg_leap y) m)%Z).
  { unfold gday, year_start; cbn [dy dm dd]. change (before_month (greg_leap y) 1) with 0%Z. lia. }
  rewrite G in D. subst u. set (dec := decimal _ t) in *. clearbody dec.
  assert (GE : g == 12 * inject_Z y + inject_Z (m - 24025)) by (unfold g; replace (12 * (y - 2002) + m - 1)%Z with (12 * y + (m - 24025))%Z by lia; rewrite inject_Z_plus, inject_Z_mult; reflexivity). clearbody g.
  replace (d - 1 + before_month (greg_leap y) m)%Z with (d + (before_month (greg_leap y) m - 1))%Z in D by lia. rewrite inject_Z_plus in D. clear G.
  assert (B1 : 1 <= inject_Z d) by (change 1 with (inject_Z 1); rewrite <- Zle_Qle; lia).
  assert (B14 : (d <= 14)%Z -> inject_Z d <= 14) by (intros; change 14 with (inject_Z 14); rewrite <- Zle_Qle; lia).
  assert (B30 : (d <= 30)%Z -> inject_Z d <= 30) by (intros; change 30 with (inject_Z 30); rewrite <- Zle_Qle; lia).
  assert (B19 : (19 <= d)%Z -> 19 <= inject_Z d) by (intros; change 19 with (inject_Z 19); rewrite <- Zle_Qle; lia).
  assert (B3 : (3 <= d)%Z -> 3 <= inject_Z d) by (intros; change 3 with (inject_Z 3); rewrite <- Zle_Qle; lia).
  assert (BM : inject_Z d <= inject_Z (month_len (greg_leap y) m)) by (rewrite <- Zle_Qle; lia). clear Hd.
  assert (K : (m = 1 \/ m = 2 \/ m = 3 \/ m = 4 \/ m = 5 \/ m = 6 \/ m = 7 \/ m = 8 \/ m = 9 \/ m = 10 \/ m = 11 \/ m = 12)%Z) by lia.
  set (yq := inject_Z y) in *. clearbody yq. set (dq := inject_Z d) in *.
  destruct (greg_leap y); repeat (destruct K as [->|K]); try subst m; unfold Qdiv in D; cbn in D, GE, BM;
    (split; [intros H; specialize (B14 H)|split; [intros H; specialize (B19 H)|intros [H H']; specialize (B3 H); specialize (B30 H')]]);
    clear - D GE F B14 B19 B3 B30 BM B1; clearbody dq; unfold inject_Z in *; split; lra.
Qed.

Open Scope Z_scope.
Lemma mapM_F2 {A B} (f : A -> res B) l out : mapM f l = Ok out <-> Forall2 (fun a b => f a = Ok b) l out.
Proof.
  revert out. induction l as [|a l IH]; intros out; cbn [mapM].
  - split; [intros [= <-]; constructor|intros H; inversion H; auto].
  - split.
    + destruct (f a) as [b|] eqn:E; cbn [bind]; [|discriminate]. destruct (mapM f l) as [o|] eqn:F; cbn [bind]; [|discriminate]. intros [= <-]. constructor; [auto|]. apply IH. auto.
    + intros H. inversion H; subst. rewrite H2. cbn [bind]. apply IH in H4. rewrite H4. reflexivity.
Qed.
Lemma mapM_ex {A B} (f : A -> res B) l : (forall a, In a l -> exists b, f a = Ok b) -> exists out, mapM f l = Ok out.
Proof.
  induction l as [|a l IH]; intros H; cbn [mapM]; [eexists; reflexivity|].
  destruct (H a (or_introl eq_refl)) as [b ->]. destruct IH as [o ->]; [intros; apply H; right; auto|]. eexists. reflexivity.
Qed.
Lemma mapM_err {A B} (f : A -> res B) l e : (forall a e', In a l -> f a = Err e' -> e' = e) -> (exists a, In a l /\ forall b, f a <> Ok b) -> mapM f l = Err e.
Proof.
  induction l as [|a l IH]; intros H (x & Hx & Ex); [destruct Hx|]. cbn [mapM].
  destruct (f a) as [b|e'] eqn:E; cbn [bind].
  - destruct Hx as [->|Hx]; [exfalso; eapply Ex; eauto|]. rewrite IH; [reflexivity| |exists x; auto]. intros; eapply H; eauto. right; auto.
  - rewrite (H a e' (or_introl eq_refl) E). reflexivity.
Qed.
Lemma skip_ok hdr last data : is_file hdr last -> skip_header (hdr ++ last :: data) = Ok data.
Proof. intros [H L]. induction H as [|h t Hh Ht IH]; cbn [app skip_header]; [rewrite L|rewrite Hh]; auto. Qed.
Lemma col_ok l (k : nat) : (k < length (nums l))%nat -> col l (Z.of_nat k) = Ok (num l k).
Proof.
  intros H. unfold col, py_get, num. replace (Z.of_nat k <? 0) with false by lia.
  replace ((0 <=? Z.of_nat k) && (Z.of_nat k <? Z.of_nat (length (nums l))))%bool with true by lia. rewrite Nat2Z.id.
  rewrite (nth_error_nth' _ 0%Q H). reflexivity.
Qed.
Lemma col_err l (k : nat) : (length (nums l) <= k)%nat -> col l (Z.of_nat k) = Err IndexError.
Proof.
  intros H. unfold col, py_get. replace (Z.of_nat k <? 0) with false by lia.
  replace ((0 <=? Z.of_nat k) && (Z.of_nat k <? Z.of_nat (length (nums l))))%bool with false by lia. reflexivity.
Qed.
Lemma col_cases l (k : nat) : col l (Z.of_nat k) = Ok (num l k) /\ (k < length (nums l))%nat \/ col l (Z.of_nat k) = Err IndexError /\ (length (nums l) <= k)%nat.
Proof. destruct (Nat.lt_ge_cases k (length (nums l))); [left|right]; split; auto using col_ok, col_err. Qed.
Lemma mjd_year_ok m : hour_year m (mjd_year m).
Proof.
  intros x c V T G Y E. unfold mjd_year.
  destruct (convert_julian_greg x c V G T (m + (4800001 # 2))%Q) as (s & -> & _).
  - rewrite E. unfold Z.sub. rewrite inject_Z_plus. change (inject_Z (-(2400001))) with (-(2400001))%Q. ring.
  - assert (E0 : (convert_calendar_decimal (dy x) (dm x) (Some (inject_Z (dd x))) (Some (inject_Z (th c))) None None None
       == convert_calendar_decimal (dy x) (dm x) (Some (inject_Z (dd x))) (Some (inject_Z (th c))) (Some (inject_Z 0)) (Some 0%Q) None)%Q).
    { unfold convert_calendar_decimal, oz. destruct (stnd_branch _); [|destruct (leap_branch _)]; reflexivity. }
    rewrite E0. change (convert_calendar_decimal _ _ _ _ _ _ _) with (decimal x (mktod (th c) 0 0)). unfold decimal. rewrite (decimal_exact x (mktod (th c) 0 0) V Y).
    unfold year_len, year_start, day_fraction. cbn [th tm ts].
    assert (Z0 : (inject_Z (th c) / 24 + inject_Z 0 / 1440 + 0 / 86400 == inject_Z (th c) / 24)%Q) by (unfold inject_Z at 2; field). rewrite Z0. reflexivity.
Qed.
Lemma round_near t : nearest_month t (round_month t).
Proof.
  unfold nearest_month, round_month, calendar_to_grace_round. rewrite inj_plus1. set (u := (12 * (t - 2002))%Q).
  apply Qabs_case; intros _; unfold Qround_even; pose proof (Qfloor_le u) as F; pose proof (Qlt_floor u) as L; rewrite inj_plus1 in L;
    set (f := Qfloor u) in *; destruct (Qcompare_spec (u - inject_Z f) (1#2)); try destruct (Z.even f); rewrite ?inj_plus1; lra.
Qed.

(** ** Months of dates *)
(** A row dated in the first 14 days of a calendar month gets that month when rounding, a row dated from the 19th on the
    next month; without rounding (days 3 to 30) the month of the date. *)
Theorem C81_months : forall x c, valid_greg x -> valid_tod c -> dy x mod 4000 <> 0 ->
  let t := decimal x c in let g := 12 * (dy x - 2002) + dm x in
  (dd x <= 14 -> calendar_to_grace_round t 1 = g) /\ (19 <= dd x -> calendar_to_grace_round t 1 = g + 1) /\ (3 <= dd x <= 30 -> calendar_to_grace t 1 = g).
Proof.
  intros x c V T Y t g. destruct (month_bounds x c V T Y) as (A & B & C). fold t in A, B, C. set (g0 := 12 * (dy x - 2002) + dm x - 1) in *.
  unfold calendar_to_grace_round, calendar_to_grace. split; [|split]; intros H.
  - destruct (A H). rewrite (qround_near _ g0) by assumption. subst g g0. lia.
  - destruct (B H). rewrite (qround_near _ (g0 + 1)); [subst g g0; lia|rewrite inj_plus1; lra..].
  - destruct (C H). rewrite (qfloor_in _ g0) by assumption. subst g g0. lia.
Qed.
(** Refuted: without rounding a row dated on the first of March gets February *)
Theorem C81_first_day_refuted : exists x c, valid_greg x /\ valid_tod c /\ dm x = 3 /\ calendar_to_grace (decimal x c) 1 = 12 * (dy x - 2002) + 2.
Proof.
  exists (mkdate 2003 3 1), (mktod 12 0 0). split; [unfold valid_greg; cbn; lia|]. split; [unfold valid_tod; cbn; repeat split; try lia; vm_compute; congruence|].
  split; [reflexivity|vm_compute; reflexivity].
Qed.

(** ** The table readers *)
(** data lines that count *)
Definition wanted (k : c20_kind) (l : line) : bool := match k with C20_GFZ => gmark l | _ => match nums l with [] => false | _ => true end end.
(** the values of a data line *)
Definition line_values (k : c20_kind) (l : line) (t : Q) (v : list Q) : Prop :=
  (match k with C20_TN => hour_year (num l 0) t | _ => t = num l 1 end) /\ v = [num l 2; (num l 4 * (1 # 10000000000))%Q].
Lemma count_gt0 l : count_gt 0 l = match nums l with [] => false | _ => true end.
Proof. unfold count_gt. destruct (nums l); reflexivity. Qed.
Lemma filter_ext' {A} (f g : A -> bool) l : (forall a, f a = g a) -> filter f l = filter g l.
Proof. intros H. induction l; cbn; [auto|]. rewrite H, IHl. reflexivity. Qed.
Definition row_of (k : c20_kind) : line -> res dated := match k with C20_TN => row_mjd 2 4 | _ => row_year 2 4 end.
Lemma c20_table k AOD H ls : k = C20_GFZ \/ k = C20_GRAVIS \/ k = C20_TN ->
  C20 k AOD H ls = do b <- body H ls; do r <- mapM (row_of k) (filter (wanted k) b); Ok (with_months round_month r).
Proof.
  intros K. destruct K as [->|[->| ->]]; cbn [C20 row_of]; unfold table; destruct (body H ls) as [b|]; cbn [bind]; auto; [..|].
  all: rewrite ?(filter_ext' _ _ b count_gt0); reflexivity.
Qed.
Lemma row_cases k l : k = C20_GFZ \/ k = C20_GRAVIS \/ k = C20_TN ->
  ((5 <= length (nums l))%nat -> exists r, row_of k l = Ok r /\ line_values k l (fst r) (snd r)) /\ ((length (nums l) <= 4)%nat -> row_of k l = Err IndexError).
Proof.
  intros K. change 1%Z with (Z.of_nat 1). split; intros L.
  - destruct K as [->|[->| ->]]; cbn [row_of]; unfold row_year, row_mjd; change 0%Z with (Z.of_nat 0); change 1%Z with (Z.of_nat 1); change 2%Z with (Z.of_nat 2); change 4%Z with (Z.of_nat 4);
      rewrite !col_ok by lia; cbn [bind]; eexists; (split; [reflexivity|]); unfold line_values; cbn [fst snd]; split; auto using mjd_year_ok.
  - destruct K as [->|[->| ->]]; cbn [row_of]; unfold row_year, row_mjd; change 0%Z with (Z.of_nat 0); change 1%Z with (Z.of_nat 1); change 2%Z with (Z.of_nat 2); change 4%Z with (Z.of_nat 4);
      repeat match goal with |- context [col l (Z.of_nat ?k)] => let H := fresh in destruct (col_cases l k) as [[-> H]|[-> H]]; cbn [bind]; auto; try (exfalso; lia) end.
Qed.
(** every data line becomes one date, in the order of the file; months are the nearest ones, then adjusted *)
Theorem C81_read : forall k AOD hdr last data, k = C20_GFZ \/ k = C20_GRAVIS \/ k = C20_TN -> is_file hdr last ->
  (forall l, In l data -> wanted k l = true -> (5 <= length (nums l))%nat) ->
  exists r, C20 k AOD true (hdr ++ last :: data) = Ok r /\ length (s_time r) = length (s_vals r) /\
    Forall2 (fun l tv => line_values k l (fst tv) (snd tv)) (filter (wanted k) data) (combine (s_time r) (s_vals r)) /\
    exists g, s_month r = adjust_months g /\ Forall2 nearest_month (s_time r) g.
Proof.
  intros k AOD hdr last data K F L. rewrite c20_table by exact K. cbn [body]. rewrite skip_ok by exact F. cbn [bind].
  destruct (mapM_ex (row_of k) (filter (wanted k) data)) as [out E].
  { intros l Hl. apply filter_In in Hl. destruct (row_cases k l K) as [R _]. destruct R as (r & E & _); [apply L; tauto|]. eauto. }
  rewrite E. cbn [bind]. eexists. split; [reflexivity|]. unfold with_months. cbn [s_time s_vals s_month]. rewrite !map_length. split; [reflexivity|]. split.
  - apply mapM_F2 in E. assert (C : combine (map fst out) (map snd out) = out) by (clear; induction out as [|[a b] o IH]; cbn [map combine fst snd]; [reflexivity|rewrite IH; reflexivity]). rewrite C. clear C.
    assert (W : Forall (fun l => (5 <= length (nums l))%nat) (filter (wanted k) data)) by (apply Forall_forall; intros l Hl; apply filter_In in Hl; apply L; tauto).
    clear - E W K. induction E as [|a b l o H E IH]; [constructor|]. inversion W; subst. constructor; auto.
    destruct (row_cases k a K) as [R _]. destruct (R H2) as (r & Er & V). assert (r = b) by congruence. subst. exact V.
  - eexists. split; [reflexivity|]. clear. induction out as [|[a b] o IH]; cbn [map]; constructor; auto. apply round_near.
Qed.
(** a data line with fewer than five numbers is an error, and so is a file without the end of the header *)
Theorem C81_errors : forall k AOD, k = C20_GFZ \/ k = C20_GRAVIS \/ k = C20_TN ->
  (forall hdr last data l, is_file hdr last -> In l data -> wanted k l = true -> (length (nums l) <= 4)%nat -> C20 k AOD true (hdr ++ last :: data) = Err IndexError) /\
  (forall ls, Forall (fun l => h_end l = false) ls -> C20 k AOD true ls = Err IndexError).
Proof.
  intros k AOD K. split.
  - intros hdr last data l F I W L. rewrite c20_table by exact K. cbn [body]. rewrite skip_ok by exact F. cbn [bind].
    rewrite (mapM_err _ _ IndexError); [reflexivity| |].
    + intros a e _ E. destruct (row_cases k a K) as [A B]. destruct (Nat.lt_ge_cases 4 (length (nums a))) as [Q|Q]; [destruct A as (r & Er & _); [lia|congruence]|rewrite B in E; congruence].
    + exists l. split; [apply filter_In; auto|]. intros b. destruct (row_cases k l K) as [_ B]. rewrite B by lia. discriminate.
  - intros ls F. rewrite c20_table by exact K. cbn [body]. assert (X : skip_header ls = Err IndexError) by (induction F as [|a l H F IH]; cbn [skip_header]; [|rewrite H]; auto). rewrite X. reflexivity.
Qed.
(** CSR files: the AOD column is removed from the values exactly if asked for *)
Theorem C81_csr : forall AOD H ls, (forall l, In l ls -> length (nums l) = 7%nat) ->
  exists r, C20 C20_CSR AOD H ls = Ok r /\ s_time r = map (fun l => num l 0) ls /\ s_month r = adjust_months (map (fun l => calendar_to_grace (num l 0) 1) ls) /\
    Forall2 (fun l v => exists c, v = [c; (num l 3 * (1 # 10000000000))%Q] /\ (c == if AOD then num l 1 - num l 4 * (1 # 10000000000) else num l 1)%Q) ls (s_vals r).
Proof.
  intros AOD H ls L. cbn [C20]. unfold loadtxt. replace (forallb _ (map nums ls)) with true.
  2:{ symmetry. apply forallb_forall. intros x Hx. apply in_map_iff in Hx. destruct Hx as (l & <- & Hl). apply Nat.eqb_eq. auto. }
  cbn [bind]. eexists. split; [reflexivity|]. unfold with_months. cbn [s_time s_vals s_month]. rewrite !map_map. cbn [fst snd].
  split; [reflexivity|]. split; [reflexivity|]. clear L. induction ls as [|l ls IH]; cbn [map]; constructor; auto.
  eexists. split; [reflexivity|]. unfold num. destruct AOD; [reflexivity|ring].
Qed.

(** ** Files with repeated months (TN-05, TN-07) *)
(** the data lines of a GRACE month *)
Definition in_month (m : Z) (l : line) : bool := match nums l with [] => false | d :: _ => calendar_to_grace_round (mjd_year d) 1 =? m end.
Definition lines_of (m : Z) (data : list line) : list line := filter (in_month m) data.
Lemma insert_u_in x y l : In y (insert_u x l) <-> y = x \/ In y l.
Proof.
  induction l as [|z l IH]; cbn [insert_u]; [cbn; intuition|]. destruct (Z.ltb_spec x z); [cbn; intuition|]. destruct (Z.eqb_spec x z).
  - subst. cbn. intuition.
  - cbn [In]. rewrite IH. intuition.
Qed.
Lemma insert_u_sorted x l : StronglySorted Z.lt l -> StronglySorted Z.lt (insert_u x l).
Proof.
  intros H. induction H as [|z l H IH F]; cbn [insert_u]; [constructor; constructor|]. destruct (Z.ltb_spec x z).
  - constructor; [constructor; auto|]. constructor; auto. eapply Forall_impl; [|exact F]. cbn. lia.
  - destruct (Z.eqb_spec x z); [constructor; auto|]. constructor; auto. apply Forall_forall. intros y Hy. apply insert_u_in in Hy. destruct Hy as [->|Hy]; [lia|]. rewrite Forall_forall in F. auto.
Qed.
Lemma unique_in y l : In y (unique_Z l) <-> In y l.
Proof. unfold unique_Z. induction l as [|z l IH]; cbn [fold_right]; [tauto|]. rewrite insert_u_in, IH. cbn. intuition. Qed.
Lemma unique_sorted l : StronglySorted Z.lt (unique_Z l).
Proof. unfold unique_Z. induction l; cbn [fold_right]; [constructor|]. apply insert_u_sorted. auto. Qed.
Lemma sorted_NoDup l : StronglySorted Z.lt l -> NoDup l.
Proof. intros H. induction H as [|z l H IH F]; constructor; auto. intros X. rewrite Forall_forall in F. specialize (F z X). lia. Qed.
Definition old_row (l : line) : Q * list Q * bool := (mjd_year (num l 0), [num l 2; num l 4 * e10]%Q, star l).
Lemma older_ok l : (5 <= length (nums l))%nat -> older_row l = Ok (old_row l).
Proof. intros H. unfold older_row. change 0%Z with (Z.of_nat 0). change 2%Z with (Z.of_nat 2). change 4%Z with (Z.of_nat 4). rewrite !col_ok by lia. reflexivity. Qed.
Lemma mapM_map {A B} (f : A -> res B) g l : (forall a, In a l -> f a = Ok (g a)) -> mapM f l = Ok (map g l).
Proof. induction l as [|a l IH]; intros H; cbn [mapM map]; [reflexivity|]. rewrite (H a (or_introl eq_refl)). cbn [bind]. rewrite IH by (intros; apply H; right; auto). reflexivity. Qed.
Lemma filter_map {A B} (f : A -> B) p l : filter p (map f l) = map f (filter (fun a => p (f a)) l).
Proof. induction l as [|a l IH]; cbn; [auto|]. destruct (p (f a)); cbn; rewrite IH; auto. Qed.
Lemma filter_filter {A} (p q : A -> bool) l : filter p (filter q l) = filter (fun a => q a && p a)%bool l.
Proof. induction l as [|a l IH]; cbn; [auto|]. destruct (q a); cbn; [destruct (p a); rewrite IH; auto|auto]. Qed.
Definition good (data : list line) : Prop := forall l, In l data -> nums l <> [] -> (5 <= length (nums l))%nat.
Definition sel_rows (data : list line) : list (Q * list Q * bool) := map old_row (filter (count_gt 0) data).
Lemma sel_month m data : filter (fun r => round_month (fst (fst r)) =? m) (sel_rows data) = map old_row (lines_of m data).
Proof.
  unfold sel_rows, lines_of. rewrite filter_map. f_equal. rewrite filter_filter. apply filter_ext'. intros l. unfold count_gt, in_month, old_row, num. cbn [fst]. destruct (nums l); reflexivity.
Qed.
Lemma older_unfold hdr last data AOD : is_file hdr last -> good data ->
  C20 C20_OLD AOD true (hdr ++ last :: data) =
  let months := unique_Z (map (fun r => round_month (fst (fst r))) (sel_rows data)) in
  do vals <- mapM (pick (sel_rows data)) months; Ok (mkslr (map fst vals) (adjust_months months) (map snd vals)).
Proof.
  intros F Gd. cbn [C20]. unfold C20_older. cbn [body]. rewrite skip_ok by exact F. cbn [bind]. rewrite (mapM_map older_row old_row).
  - reflexivity.
  - intros l Hl. apply filter_In in Hl. destruct Hl as [Hl C]. apply older_ok, Gd; auto. unfold count_gt in C. destruct (nums l); [discriminate|congruence].
Qed.
Lemma month_in m data : In m (unique_Z (map (fun r => round_month (fst (fst r))) (sel_rows data))) <-> lines_of m data <> [].
Proof.
  rewrite unique_in. split.
  - intros H E. apply in_map_iff in H. destruct H as (r & <- & Hr). assert (X : In r (filter (fun x => round_month (fst (fst x)) =? round_month (fst (fst r))) (sel_rows data))) by (apply filter_In; split; [auto|apply Z.eqb_refl]).
    rewrite sel_month, E in X. destruct X.
  - intros H. destruct (lines_of m data) as [|l ls] eqn:E; [congruence|]. assert (X : In (old_row l) (filter (fun x => round_month (fst (fst x)) =? m) (sel_rows data))) by (rewrite sel_month, E; left; auto).
    apply filter_In in X. destruct X as [X Y]. apply in_map_iff. exists (old_row l). split; [apply Z.eqb_eq; auto|auto].
Qed.
(** the line kept for a month: the only one, or the starred one of two *)
Definition chosen (m : Z) (data : list line) (l : line) : Prop :=
  lines_of m data = [l] \/ exists a b, lines_of m data = [a; b] /\ ((l = a /\ star a = true /\ star b = false) \/ (l = b /\ star a = false /\ star b = true)).
(** two lines of a month, both or neither starred *)
Definition ambiguous (m : Z) (data : list line) : Prop := exists a b, lines_of m data = [a; b] /\ star a = star b.
Lemma pick_chosen m data l : chosen m data l -> pick (sel_rows data) m = Ok (fst (old_row l)).
Proof.
  unfold pick. rewrite sel_month. intros [->|(a & b & -> & C)]; cbn [map]; [reflexivity|]. unfold old_row. cbn [filter snd fst].
  destruct C as [(-> & S1 & S2)|(-> & S1 & S2)]; rewrite S1, S2; reflexivity.
Qed.
Lemma pick_ambiguous m data : ambiguous m data -> pick (sel_rows data) m = Err ValueError.
Proof.
  unfold pick. rewrite sel_month. intros (a & b & -> & C). cbn [map filter]. unfold old_row. cbn [snd]. rewrite C. destruct (star b); reflexivity.
Qed.
Lemma pick_many m data : (3 <= length (lines_of m data))%nat -> pick (sel_rows data) m = Ok (0%Q, [0%Q; 0%Q]).
Proof. unfold pick. rewrite sel_month. destruct (lines_of m data) as [|a [|b [|c r]]]; cbn [length map]; try lia. reflexivity. Qed.
Lemma pick_total m data : lines_of m data <> [] -> (exists l, chosen m data l) \/ ambiguous m data \/ (3 <= length (lines_of m data))%nat.
Proof.
  unfold chosen, ambiguous. destruct (lines_of m data) as [|a [|b [|c r]]]; cbn [length]; intros H; [congruence|left; eauto| |right; right; lia].
  destruct (star a) eqn:A, (star b) eqn:B; [right; left; exists a, b; split; auto; congruence|left; exists a; right; exists a, b; auto|left; exists b; right; exists a, b; auto|right; left; exists a, b; split; auto; congruence].
Qed.
(** one entry per month that occurs, ascending; with the values of the chosen line.  Refuted part: a month with three lines
    or more is reported with value, error and time zero. *)
Theorem C81_monthly : forall AOD hdr last data, is_file hdr last -> good data -> (forall m, ~ ambiguous m data) ->
  exists r, C20 C20_OLD AOD true (hdr ++ last :: data) = Ok r /\ StronglySorted Z.lt (s_month r) /\ (forall m, In m (s_month r) <-> lines_of m data <> []) /\
    length (s_time r) = length (s_month r) /\ length (s_vals r) = length (s_month r) /\
    forall i m, nth_error (s_month r) i = Some m ->
      (forall l, chosen m data l -> nth i (s_vals r) [] = [num l 2; (num l 4 * (1 # 10000000000))%Q] /\ hour_year (num l 0) (nth i (s_time r) 0%Q)) /\
      ((3 <= length (lines_of m data))%nat -> nth i (s_vals r) [] = [0%Q; 0%Q] /\ nth i (s_time r) 0%Q = 0%Q).
Proof.
  intros AOD hdr last data F Gd NA. rewrite older_unfold by assumption. cbv zeta. set (months := unique_Z _).
  assert (MI : forall m, In m months <-> lines_of m data <> []) by (intros; apply month_in). assert (SS : StronglySorted Z.lt months) by apply unique_sorted.
  destruct (mapM_ex (pick (sel_rows data)) months) as [out E].
  { intros m Hm. destruct (pick_total m data) as [[l C]|[A|M]]; [apply MI; auto|rewrite (pick_chosen _ _ _ C); eauto|destruct (NA m A)|rewrite pick_many by auto; eauto]. }
  rewrite E. cbn [bind]. eexists. split; [reflexivity|]. cbn [s_month s_time s_vals]. rewrite adjust_nodup by (apply sorted_NoDup; auto). split; [exact SS|]. split; [exact MI|].
  apply mapM_F2 in E. assert (L : length months = length out) by (clear - E; induction E; cbn [length]; congruence). rewrite !map_length. split; [auto|]. split; [auto|]. intros i m Hi.
  assert (X : exists o, nth_error out i = Some o /\ pick (sel_rows data) m = Ok o).
  { clear - E Hi. revert i Hi. induction E as [|a b l o H E IH]; intros [|i] Hi; cbn in *; try discriminate; [injection Hi as <-; eauto|apply IH; auto]. }
  destruct X as (o & Ho & P). assert (N1 : nth i (map fst out) 0%Q = fst o) by (apply nth_error_nth; exact (map_nth_error _ _ _ Ho)).
  assert (N2 : nth i (map snd out) [] = snd o) by (apply nth_error_nth; exact (map_nth_error _ _ _ Ho)). rewrite N1, N2. split.
  - intros l C. rewrite (pick_chosen _ _ _ C) in P. injection P as <-. split; [reflexivity|apply mjd_year_ok].
  - intros M. rewrite (pick_many _ _ M) in P. injection P as <-. auto.
Qed.
(** an ambiguous month makes the whole call fail *)
Theorem C81_ambiguous : forall AOD hdr last data m, is_file hdr last -> good data -> ambiguous m data ->
  C20 C20_OLD AOD true (hdr ++ last :: data) = Err ValueError.
Proof.
  intros AOD hdr last data m F Gd A. rewrite older_unfold by assumption. cbv zeta. rewrite (mapM_err _ _ ValueError); [reflexivity| |].
  - intros a e Ha E. apply month_in in Ha. destruct (pick_total a data Ha) as [[l C]|[B|M]]; [rewrite (pick_chosen _ _ _ C) in E; discriminate|rewrite (pick_ambiguous _ _ B) in E; congruence|rewrite pick_many in E by auto; discriminate].
  - exists m. split; [apply month_in; destruct A as (a & b & -> & _); discriminate|]. rewrite (pick_ambiguous _ _ A). discriminate.
Qed.
(** Refuted: a month with three solutions loses all of them (53614 is 2005-09-01) *)
Theorem C81_three_refuted : exists hdr last data r m, is_file hdr last /\ good data /\ C20 C20_OLD true true (hdr ++ last :: data) = Ok r /\
  s_month r = [m] /\ (forall l, In l data -> num l 2 = (-484 # 1000000)%Q /\ in_month m l = true) /\ s_vals r = [[0%Q; 0%Q]].
Proof.
  set (ln := mkline false [53614; 2005; (-484 # 1000000); 0; 1]%Q false false).
  exists [], (mkline true [] false false), [ln; ln; ln], (mkslr [0%Q] [45] [[0%Q; 0%Q]]), 45. split; [split; [constructor|reflexivity]|]. split; [intros l [<-|[<-|[<-|[]]]] _; cbn; lia|].
  split; [vm_compute; reflexivity|]. split; [reflexivity|]. split; [|reflexivity].
  intros l H. split; [destruct H as [<-|[<-|[<-|[]]]]; reflexivity|]. destruct H as [<-|[<-|[<-|[]]]]; vm_compute; reflexivity.
Qed.
Example C81_nonvacuous : let ln := mkline false [53614; 2005; (-484 # 1000000); 0; 1]%Q in
  let data := [ln false false; ln true false; mkline false [] false false] in
  is_file [mkline false [1]%Q false false] (mkline true [] false false) /\ good data /\ (forall m, ~ ambiguous m data) /\ chosen 45 data (ln true false).
Proof.
  cbv zeta. set (a := mkline false [53614; 2005; _; 0; 1]%Q false false). set (b := mkline false _ true false). split; [split; [constructor; [reflexivity|constructor]|reflexivity]|].
  split; [intros l [<-|[<-|[<-|[]]]] H; cbn; [lia|lia|exfalso; apply H; reflexivity]|].
  assert (L : forall m, lines_of m [a; b; mkline false [] false false] = if 45 =? m then [a; b] else []).
  { intros m. unfold lines_of. cbn [filter]. unfold in_month. cbn [nums a b]. replace (calendar_to_grace_round (mjd_year 53614) 1) with 45 by (vm_compute; reflexivity). destruct (45 =? m); reflexivity. }
  split.
  - intros m (x & y & E & S). rewrite L in E. destruct (45 =? m); [injection E as <- <-; discriminate|discriminate].
  - right. exists a, b. rewrite L. split; [reflexivity|]. right. auto.
Qed.
