(** C123: dates and units of time in texts. *)
From Coq Require Import QArith Ascii String ZifyBool ZifyNat.
From Verif Require Import Base TimeModel TimeSpec TimeProofs TimeProofs2 TimeStringModel.
Ltac Zify.zify_post_hook ::= Z.to_euclidean_division_equations.
Open Scope Z_scope.

(** ** specification *)
Definition date_of (t : stamp) : date := mkdate (s_y t) (s_mo t) (s_d t).
Definition offset (t : stamp) : Z := match s_off t with Some o => o | None => 0 end.
Definition valid_stamp (t : stamp) : Prop :=
  valid_greg (date_of t) /\ 1 <= s_y t <= 9999 /\ 0 <= s_h t <= 23 /\ 0 <= s_mi t <= 59 /\ 0 <= s_s t <= 59 /\ 0 <= s_us t <= 999999 /\ - 86400 < offset t < 86400.
(** the instant in seconds since 1970-01-01 00:00 UTC, without the fraction of the second *)
Definition instant (t : stamp) : Z := (gday (date_of t) - gday (mkdate 1970 1 1)) * 86400 + 3600 * s_h t + 60 * s_mi t + s_s t - offset t.
(** year, month, day, hour, minute, second in UTC at an instant *)
Definition utc_fields (l : list Z) (i : Z) : Prop :=
  exists y m d h mi s, l = [y; m; d; h; mi; s] /\ let t := mkstamp y m d h mi s 0 None in valid_stamp t /\ instant t = i.
(** the instant is within the years that a date can have, in UTC *)
Definition in_years (i : Z) : Prop := instant (mkstamp 1 1 1 0 0 0 0 None) <= i <= instant (mkstamp 9999 12 31 23 59 59 0 None).
(** the units of time and their seconds; letters of any case *)
Definition units_of (k : Q) : list string :=
  (if Qeq_bool k (1 # 1000000) then ["microseconds"; "microsecond"; "microsec"; "microsecs"]
   else if Qeq_bool k (1 # 1000) then ["milliseconds"; "millisecond"; "millisec"; "millisecs"; "msec"; "msecs"; "ms"]
   else if Qeq_bool k 1 then ["seconds"; "second"; "sec"; "secs"; "s"]
   else if Qeq_bool k 60 then ["minutes"; "minute"; "min"; "mins"]
   else if Qeq_bool k 3600 then ["hours"; "hour"; "hr"; "hrs"; "h"]
   else if Qeq_bool k 86400 then ["day"; "days"; "d"]
   else if Qeq_bool k 2592000 then ["mon"; "month"; "months"]
   else if Qeq_bool k 31536000 then ["common_year"; "common_years"]
   else if Qeq_bool k 31557600 then ["year"; "years"] else [])%string%Q.
Definition same_letter (c d : ascii) : Prop := let a := nat_of_ascii c in let b := nat_of_ascii d in c = d \/ (97 <= a <= 122 /\ b + 32 = a)%nat.
Definition is_unit (u : text) (k : Q) : Prop := exists name, In name (units_of k) /\ Forall2 same_letter (list_ascii_of_string name) u.
(** white space: tab, line feed, vertical tab, form feed, carriage return, the four separators, space *)
Definition is_blank (c : ascii) : Prop := let n := nat_of_ascii c in (9 <= n <= 13 \/ 28 <= n <= 32)%nat.
Definition gap (s : text) : Prop := s <> [] /\ Forall is_blank s.
Definition is_word (s : text) : Prop := s <> [] /\ Forall (fun c => ~ is_blank c) s.
(** a text that begins with something else than white space *)
Definition starts (s : text) : Prop := exists c r, s = c :: r /\ ~ is_blank c.

(** ** the calendar *)
Lemma dim_ok y m : 1 <= m <= 12 -> days_in_month y m = month_len (greg_leap y) m.
Proof.
  intros H. unfold days_in_month, month_len. destruct (Z.eqb_spec m 2) as [->|N].
  - replace (greg_leap y) with (((y mod 4 =? 0) && (negb (y mod 100 =? 0) || (y mod 400 =? 0)))%bool); [reflexivity|]. unfold greg_leap. destruct (y mod 4 =? 0) eqn:A, (y mod 100 =? 0) eqn:B, (y mod 400 =? 0) eqn:C; try reflexivity; exfalso; lia.
  - month_cases m X; try reflexivity. now destruct N.
Qed.
Lemma day_on_ok y m d r : valid_greg (mkdate y m d) -> 1 <= y <= 9999 -> (day_on y m d = Ok r -> let '(y', m', d') := r in mkdate y' m' d' = next_greg (mkdate y m d) /\ 1 <= y' <= 9999).
Proof.
  intros [HM HD] Y. cbn [dy dm dd] in *. unfold day_on, next_greg. cbn [dy dm dd]. rewrite dim_ok by exact HM.
  destruct (d <? _) eqn:A; [intros [= <-]; split; [reflexivity|lia]|]. destruct (m <? 12) eqn:B; [intros [= <-]; split; [reflexivity|lia]|]. destruct (y <? 9999) eqn:C; [intros [= <-]; split; [reflexivity|lia]|discriminate].
Qed.
Lemma day_back_ok y m d r : valid_greg (mkdate y m d) -> 1 <= y <= 9999 -> (day_back y m d = Ok r -> let '(y', m', d') := r in mkdate y' m' d' = prev_greg (mkdate y m d) /\ 1 <= y' <= 9999).
Proof.
  intros [HM HD] Y. cbn [dy dm dd] in *. unfold day_back, prev_greg. cbn [dy dm dd].
  destruct (1 <? d) eqn:A; [intros [= <-]; split; [reflexivity|lia]|]. destruct (1 <? m) eqn:B; [intros [= <-]; split; [rewrite dim_ok by lia; reflexivity|lia]|]. destruct (1 <? y) eqn:C; [intros [= <-]; split; [reflexivity|lia]|discriminate].
Qed.
Lemma gday_prev x : valid_greg x -> gday (prev_greg x) = gday x - 1.
Proof. intros V. destruct (prev_valid x V) as (V' & E). rewrite <- E at 2. rewrite gday_next by exact V'. lia. Qed.
(** the bounds of the years by the number of the day *)
Lemma day_on_some y m d : valid_greg (mkdate y m d) -> 1 <= y <= 9999 -> gday (mkdate y m d) < gday (mkdate 9999 12 31) -> exists r, day_on y m d = Ok r.
Proof.
  intros [HM HD] Y L. cbn [dy dm dd] in *. unfold day_on. rewrite dim_ok by exact HM. destruct (d <? _) eqn:A; [eauto|]. destruct (m <? 12) eqn:B; [eauto|]. destruct (y <? 9999) eqn:C; [eauto|].
  exfalso. assert (y = 9999) by lia. assert (m = 12) by lia. subst. assert (E : month_len (greg_leap 9999) 12 = 31) by reflexivity. rewrite E in *. assert (d = 31) by lia. subst. lia.
Qed.
Lemma day_back_some y m d : valid_greg (mkdate y m d) -> 1 <= y <= 9999 -> gday (mkdate 1 1 1) < gday (mkdate y m d) -> exists r, day_back y m d = Ok r.
Proof.
  intros [HM HD] Y L. cbn [dy dm dd] in *. unfold day_back. destruct (1 <? d) eqn:A; [eauto|]. destruct (1 <? m) eqn:B; [eauto|]. destruct (1 <? y) eqn:C; [eauto|].
  exfalso. assert (y = 1) by lia. assert (m = 1) by lia. assert (d = 1) by lia. subst. lia.
Qed.
Lemma day_on_none y m d : valid_greg (mkdate y m d) -> 1 <= y <= 9999 -> gday (mkdate 9999 12 31) <= gday (mkdate y m d) -> day_on y m d = Err OtherExn.
Proof.
  intros V Y L. destruct (day_on y m d) as [[[y' m'] d']|e] eqn:E.
  - exfalso. pose proof (day_on_ok _ _ _ _ V Y E) as (E2 & Y'). pose proof (gday_next _ V) as G. rewrite <- E2 in G. pose proof (next_valid _ V) as V'. rewrite <- E2 in V'.
    assert (X : gday (mkdate y' m' d') <= gday (mkdate 9999 12 31)); [|lia]. clear - V' Y'. destruct V' as (HM & HD). cbn [dy dm dd] in *. unfold gday. cbn [dy dm dd]. destruct (Z.eq_dec y' 9999) as [->|].
    + assert (B : month_len (greg_leap 9999) m' <= 31) by (apply month_len_pos). assert (C : before_month (greg_leap 9999) m' <= before_month (greg_leap 9999) 12).
      { change (greg_leap 9999) with false. month_cases m' X; cbn; lia. }
      lia.
    + assert (B : before_month (greg_leap y') m' + d' <= 366).
      { clear - HM HD. revert HD. destruct (greg_leap y'); month_cases m' X; unfold before_month; cbn -[Z.add]; lia. }
      assert (C : before_month (greg_leap 9999) 12 = 334) by reflexivity. rewrite C. lia.
  - unfold day_on in E. destruct (d <? _), (m <? 12), (y <? 9999); congruence.
Qed.
Lemma day_back_none y m d : valid_greg (mkdate y m d) -> 1 <= y <= 9999 -> gday (mkdate y m d) <= gday (mkdate 1 1 1) -> day_back y m d = Err OtherExn.
Proof.
  intros V Y L. destruct (day_back y m d) as [[[y' m'] d']|e] eqn:E.
  - exfalso. pose proof (day_back_ok _ _ _ _ V Y E) as (E2 & Y'). pose proof (gday_prev _ V) as G. rewrite <- E2 in G. pose proof (proj1 (prev_valid _ V)) as V'. rewrite <- E2 in V'.
    assert (X : gday (mkdate 1 1 1) <= gday (mkdate y' m' d')); [|lia]. clear - V' Y'. destruct V' as (HM & HD). cbn [dy dm dd] in *. unfold gday. cbn [dy dm dd].
    assert (B : 0 <= before_month (greg_leap y') m') by (destruct (greg_leap y'); month_cases m' X; cbn; lia). assert (C : before_month (greg_leap 1) 1 = 0) by reflexivity. rewrite C. lia.
  - unfold day_back in E. destruct (1 <? d), (1 <? m), (1 <? y); congruence.
Qed.
(** conversion to UTC *)
Lemma utc_ok t : valid_stamp t -> in_years (instant t) ->
  exists u, to_utc t = Ok u /\ valid_stamp u /\ s_off u = None /\ instant u = instant t /\ s_us u = s_us t.
Proof.
  intros (VG & Y & H & MI & SS & US & OF) IY. unfold to_utc. destruct (s_off t) as [o|] eqn:EO.
  2: { exists t. split; [reflexivity|]. split; [repeat split; try assumption; try apply VG; try lia|]; auto. }
  unfold offset in OF. rewrite EO in OF. destruct t as [y m d h mi s us off]. unfold in_years, instant, date_of, offset in *. cbn [s_y s_mo s_d s_h s_mi s_s s_us s_off] in *. subst off.
  set (g := gday (mkdate y m d)) in *. set (g0 := gday (mkdate 1970 1 1)) in *. set (g1 := gday (mkdate 1 1 1)) in *. set (g2 := gday (mkdate 9999 12 31)) in *.
  set (q := 3600 * h + 60 * mi + s - o). set (k := q / 86400). assert (K : -1 <= k <= 1) by lia.
  assert (FIN : forall y' m' d', valid_greg (mkdate y' m' d') -> 1 <= y' <= 9999 -> gday (mkdate y' m' d') = g + k ->
    exists u, Ok (mkstamp y' m' d' (q mod 86400 / 3600) (q mod 86400 / 60 mod 60) (q mod 86400 mod 60) us None) = Ok u /\ valid_stamp u /\ s_off u = None /\ instant u = (g - g0) * 86400 + 3600 * h + 60 * mi + s - o /\ s_us u = us).
  { intros y' m' d' V' Y' G. eexists. split; [reflexivity|]. split; [|split; [reflexivity|split; [|reflexivity]]].
    - unfold valid_stamp, date_of, offset. cbn [s_y s_mo s_d s_h s_mi s_s s_us s_off]. split; [exact V'|]. clear - Y' US. lia.
    - unfold instant, date_of, offset. cbn [s_y s_mo s_d s_h s_mi s_s s_us s_off]. rewrite G. fold g0. clear - k q. subst k q. clearbody g g0. lia. }
  destruct (q <? 0) eqn:Q0.
  - destruct (day_back_some y m d VG Y) as ([[y' m'] d'] & E). { fold g1 g. clearbody g0 g1 g2 g. lia. } rewrite E. cbn [bind]. destruct (day_back_ok _ _ _ _ VG Y E) as (E2 & Y'). apply FIN; [rewrite E2; apply prev_valid, VG|exact Y'|]. rewrite E2, gday_prev by exact VG. fold g. lia.
  - destruct (q <? 86400) eqn:Q1; cbn [bind].
    + apply FIN; [exact VG|exact Y|]. fold g. lia.
    + destruct (day_on_some y m d VG Y) as ([[y' m'] d'] & E). { fold g2 g. clearbody g0 g1 g2 g. lia. } rewrite E. cbn [bind]. destruct (day_on_ok _ _ _ _ VG Y E) as (E2 & Y'). apply FIN; [rewrite E2; apply next_valid, VG|exact Y'|]. rewrite E2, gday_next by exact VG. fold g. lia.
Qed.
Lemma utc_out t : valid_stamp t -> ~ in_years (instant t) -> to_utc t = Err OtherExn.
Proof.
  intros (VG & Y & H & MI & SS & US & OF) IY. destruct t as [y m d h mi s us off]. unfold to_utc, in_years, instant, date_of, offset in *. cbn [s_y s_mo s_d s_h s_mi s_s s_us s_off] in *.
  assert (B : gday (mkdate 1 1 1) <= gday (mkdate y m d) <= gday (mkdate 9999 12 31)).
  { split; apply Z.nlt_ge; intros L.
    - pose proof (day_back_none y m d VG Y ltac:(lia)) as E. unfold day_back in E. destruct (1 <? d) eqn:A; [discriminate|]. destruct (1 <? m) eqn:A1; [discriminate|]. destruct (1 <? y) eqn:A2; [discriminate|]. destruct VG as (V1 & V2). cbn [dy dm dd] in *. assert (y = 1) by lia. assert (m = 1) by lia. assert (d = 1) by lia. subst. lia.
    - pose proof (day_on_none y m d VG Y ltac:(lia)) as E. unfold day_on in E. destruct VG as (V1 & V2). cbn [dy dm dd] in *. rewrite dim_ok in E by exact V1. destruct (d <? _) eqn:A; [discriminate|]. destruct (m <? 12) eqn:A1; [discriminate|]. destruct (y <? 9999) eqn:A2; [discriminate|].
      assert (y = 9999) by lia. assert (m = 12) by lia. subst. assert (E1 : month_len (greg_leap 9999) 12 = 31) by reflexivity. rewrite E1 in *. assert (d = 31) by lia. subst. lia. }
  set (g := gday (mkdate y m d)) in *. set (g0 := gday (mkdate 1970 1 1)) in *. set (g1 := gday (mkdate 1 1 1)) in *. set (g2 := gday (mkdate 9999 12 31)) in *.
  destruct off as [o|]. 2: { exfalso. apply IY. clearbody g g0 g1 g2. lia. }
  destruct (_ <? 0) eqn:Q0.
  - rewrite (day_back_none y m d VG Y); [reflexivity|]. fold g g1. clearbody g g0 g1 g2. lia.
  - destruct (_ <? 86400) eqn:Q1; [exfalso; apply IY; clearbody g g0 g1 g2; lia|]. rewrite (day_on_none y m d VG Y); [reflexivity|]. fold g g2. clearbody g g0 g1 g2. lia.
Qed.
Lemma fields_of u i : valid_stamp u -> s_off u = None -> instant u = i -> utc_fields (datetime_to_list u) i.
Proof.
  intros (V & Y & H) O E. destruct u as [y m d h mi s us off]. cbn [s_off] in O. subst off. exists y, m, d, h, mi, s. split; [reflexivity|]. cbn zeta. split; [|exact E]. unfold valid_stamp, date_of, offset in *. cbn [s_y s_mo s_d s_h s_mi s_s s_us s_off] in *. repeat (split; [assumption || lia|]). lia.
Qed.
(** ** words and units *)
Lemma blank_iff c : blank c = true <-> is_blank c.
Proof. unfold blank, is_blank. cbv zeta. rewrite orb_true_iff, !andb_true_iff, !Nat.leb_le. tauto. Qed.
Lemma blank_not c : ~ is_blank c -> blank c = false.
Proof. intros H. apply not_true_is_false. rewrite blank_iff. exact H. Qed.
Lemma strip_gap g s : Forall is_blank g -> strip_left (g ++ s) = strip_left s.
Proof. induction 1 as [|c g H _ IH]; [reflexivity|]. cbn [app strip_left]. apply blank_iff in H. now rewrite H. Qed.
Lemma strip_starts s : starts s -> strip_left s = s.
Proof. intros (c & r & -> & N). cbn [strip_left]. now rewrite (blank_not _ N). Qed.
Lemma word_ok w s : Forall (fun c => ~ is_blank c) w -> (s = [] \/ exists c r, s = c :: r /\ is_blank c) -> word (w ++ s) = (w, s).
Proof.
  induction 1 as [|c w H _ IH]; intros S.
  - destruct S as [->|(c & r & -> & B)]; [reflexivity|]. cbn [app word]. apply blank_iff in B. now rewrite B.
  - cbn [app word]. rewrite (blank_not _ H), (IH S). reflexivity.
Qed.
Lemma word_starts w s : is_word w -> starts (w ++ s).
Proof. intros (N & F). destruct w as [|c w]; [congruence|]. inversion F; subst. exists c, (w ++ s). split; [reflexivity|assumption]. Qed.
Lemma split_step k g w s : Forall is_blank g -> is_word w -> (s = [] \/ exists c r, s = c :: r /\ is_blank c) -> split_none (Datatypes.S k) (g ++ w ++ s) = w :: split_none k s.
Proof.
  intros G W S. cbn [split_none]. rewrite (strip_gap _ _ G), (strip_starts _ (word_starts w s W)). destruct (w ++ s) eqn:E; [destruct (word_starts w s W) as (? & ? & X & _); rewrite E in X; discriminate|]. rewrite <- E.
  rewrite (word_ok w s (proj2 W) S). reflexivity.
Qed.
Lemma gap_head g s : gap g -> g ++ s = [] \/ exists c r, g ++ s = c :: r /\ is_blank c.
Proof. intros (N & F). right. destruct g as [|c g]; [congruence|]. inversion F; subst. exists c, (g ++ s). split; [reflexivity|assumption]. Qed.
Lemma split_three g0 u g1 w g2 e : Forall is_blank g0 -> is_word u -> gap g1 -> is_word w -> gap g2 -> starts e -> split_none 2 (g0 ++ u ++ g1 ++ w ++ g2 ++ e) = [u; w; e].
Proof.
  intros G0 U G1 W G2 E. rewrite (split_step 1 g0 u _ G0 U (gap_head g1 _ G1)). rewrite (split_step 0 g1 w _ (proj2 G1) W (gap_head g2 _ G2)). cbn [split_none]. rewrite (strip_gap _ _ (proj2 G2)), (strip_starts _ E). destruct E as (c & r & -> & _). reflexivity.
Qed.
(** the words of a text: fewer than three *)
Inductive few : text -> Prop :=
| Few0 g : Forall is_blank g -> few g
| Few1 g u g' : Forall is_blank g -> is_word u -> Forall is_blank g' -> few (g ++ u ++ g')
| Few2 g u g' w g'' : Forall is_blank g -> is_word u -> gap g' -> is_word w -> Forall is_blank g'' -> few (g ++ u ++ g' ++ w ++ g'').
Lemma blanks_head g : Forall is_blank g -> g = [] \/ exists c r, g = c :: r /\ is_blank c.
Proof. intros F. destruct g as [|c g]; [now left|]. inversion F; subst. right. eauto. Qed.
Lemma split_blanks k g : Forall is_blank g -> split_none k g = [].
Proof. intros G. destruct k; cbn [split_none]; rewrite <- (app_nil_r g), (strip_gap _ [] G); reflexivity. Qed.
Lemma split_few s : few s -> exists l, split_none 2 s = l /\ (List.length l < 3)%nat.
Proof.
  intros [g G|g u g' G U G'|g u g' w g'' G U G' W G'']; eexists; (split; [reflexivity|]).
  - rewrite split_blanks by exact G. cbn. lia.
  - rewrite (split_step 1 g u g' G U (blanks_head _ G')), split_blanks by exact G'. cbn. lia.
  - rewrite (split_step 1 g u _ G U (gap_head g' _ G')), (split_step 0 g' w g'' (proj2 G') W (blanks_head _ G'')), split_blanks by exact G''. cbn. lia.
Qed.
Lemma lower_small c : (97 <= nat_of_ascii c <= 122)%nat -> lower c = c.
Proof. intros H. unfold lower. cbv zeta. destruct ((65 <=? nat_of_ascii c)%nat && (nat_of_ascii c <=? 90)%nat)%bool eqn:E; [lia|reflexivity]. Qed.
Lemma lower_same c d : same_letter c d -> (97 <= nat_of_ascii c <= 122)%nat \/ c = "_"%char -> lower d = c.
Proof.
  intros [<-|(A & B)] H.
  - destruct H as [H| ->]; [now apply lower_small|reflexivity].
  - unfold lower. cbv zeta. destruct ((65 <=? nat_of_ascii d)%nat && (nat_of_ascii d <=? 90)%nat)%bool eqn:E; [|lia]. rewrite <- (ascii_nat_embedding c). f_equal. lia.
Qed.
Definition small (s : string) : bool := forallb (fun c => ((97 <=? nat_of_ascii c)%nat && (nat_of_ascii c <=? 122)%nat || Ascii.eqb c "_"%char)%bool) (list_ascii_of_string s).
Lemma units_list k name : In name (units_of k) -> exists k', (k' == k)%Q /\ look name to_sec = Some k' /\ small name = true.
Proof.
  unfold units_of.
  repeat (match goal with |- In _ (if Qeq_bool ?a ?b then _ else _) -> _ => destruct (Qeq_bool a b) eqn:HB; [apply Qeq_bool_eq in HB; intros H; cbn [In] in H;
    repeat (destruct H as [<-|H]; [eexists; split; [|split; [reflexivity|reflexivity]]; rewrite HB; reflexivity|]); destruct H|] end; try clear HB).
  intros [].
Qed.
Lemma lower_is d : same_letter (lower d) d.
Proof. unfold same_letter, lower. cbv zeta. destruct ((65 <=? nat_of_ascii d)%nat && (nat_of_ascii d <=? 90)%nat)%bool eqn:E; [|now left]. right. rewrite nat_ascii_embedding; lia. Qed.
Lemma unit_found u k : is_unit u k -> exists k', (k' == k)%Q /\ look (string_of_list_ascii (map lower u)) to_sec = Some k'.
Proof.
  intros (name & I & F). destruct (units_list k name I) as (k' & E & L & SM). exists k'. split; [exact E|]. rewrite <- L. f_equal. rewrite <- (string_of_list_ascii_of_string name). f_equal. unfold small in SM. rewrite forallb_forall in SM.
  clear - F SM. induction F as [|c d l m S _ IH]; [reflexivity|]. cbn [map]. f_equal; [|apply IH; intros x X; apply SM; now right]. apply lower_same; [exact S|]. specialize (SM c (or_introl eq_refl)). apply orb_true_iff in SM as [SM|SM]; [left; lia|right; now apply Ascii.eqb_eq].
Qed.
Lemma look_units name v : look name to_sec = Some v -> In name (units_of v).
Proof.
  assert (G : forall l, Forall (fun p => In (fst p) (units_of (snd p))) l -> look name l = Some v -> In name (units_of v)).
  { induction 1 as [|[a x] l H _ IH]; cbn [look]; [discriminate|]. destruct (String.eqb_spec name a) as [->|]; [intros [= <-]; exact H|exact IH]. }
  apply G. unfold to_sec. repeat (apply Forall_cons; [vm_compute; tauto|]). apply Forall_nil.
Qed.
Lemma unit_only u v : look (string_of_list_ascii (map lower u)) to_sec = Some v -> is_unit u v.
Proof.
  intros H. exists (string_of_list_ascii (map lower u)). split; [now apply look_units|]. rewrite list_ascii_of_string_of_list_ascii. clear H. induction u as [|c u IH]; constructor; [apply lower_is|exact IH].
Qed.
(** ** epochs *)
Lemma ordinal_ok y m d : 1 <= m <= 12 -> ordinal y m d - 719163 = gday (mkdate y m d) - gday (mkdate 1970 1 1).
Proof.
  intros H. assert (E : sumZ (map (fun i => days_in_month y (Z.of_nat i)) (seq 1 (Z.to_nat (m - 1)))) = before_month (greg_leap y) m).
  { rewrite (map_ext_in _ (fun i => month_len (greg_leap y) (Z.of_nat i))) by (intros i I; apply in_seq in I; apply dim_ok; lia). destruct (greg_leap y); month_cases m X; reflexivity. }
  unfold ordinal. rewrite E. unfold gday. cbn [dy dm dd]. assert (X : before_month (greg_leap 1970) 1 = 0) by reflexivity. rewrite X. cbn -[Z.mul Z.add Z.sub Z.div before_month greg_leap]. lia.
Qed.
Lemma datetime64_ok t : valid_stamp t -> s_off t = None -> datetime64 t = instant t * 1000000 + s_us t.
Proof. intros ((V & _) & _) O. unfold datetime64, instant, offset. rewrite O, ordinal_ok by exact V. unfold date_of. lia. Qed.
Lemma fields_moment du l i : utc_fields l i -> moment du (Fields l) = Ok (i * 1000000).
Proof.
  intros (y & m & d & h & mi & s & -> & V & E). cbn [moment make_datetime]. pose proof V as ((VM & VD) & Y & H & MI & SS & _). unfold date_of in *. cbn [s_y s_mo s_d s_h s_mi s_s s_us s_off dy dm dd] in *.
  rewrite dim_ok by exact VM. match goal with |- bind (if ?b then _ else _) _ = _ => replace b with true by (symmetry; rewrite !andb_true_iff, !Z.leb_le; repeat split; lia) end. cbn [bind]. rewrite datetime64_ok; [|exact V|reflexivity]. rewrite E. cbn [s_us]. f_equal. lia.
Qed.
Lemma written_moment du e t : du e = Ok t -> valid_stamp t -> in_years (instant t) -> moment du (Written e) = Ok (instant t * 1000000 + s_us t).
Proof. intros D V IY. destruct (utc_ok t V IY) as (u & U & VU & OU & IU & SU). cbn [moment]. unfold parse. rewrite D. cbn [bind]. rewrite U. cbn [bind]. rewrite datetime64_ok by assumption. now rewrite IU, SU. Qed.

(** ** C123 *)
(** "units since epoch": the fields of the epoch in UTC and the seconds of the unit, for any white space, any case of the unit and any word between *)
Theorem C123_units : forall du g0 u g1 w g2 e k t, let s := g0 ++ u ++ g1 ++ w ++ g2 ++ e in
  Forall is_blank g0 -> is_word u -> gap g1 -> is_word w -> gap g2 -> starts e -> is_unit u k ->
  du s = Err ValueError -> du e = Ok t -> valid_stamp t -> in_years (instant t) ->
  exists l k', parse_date_string du s = Ok (l, k') /\ (k' == k)%Q /\ utc_fields l (instant t).
Proof.
  intros du g0 u g1 w g2 e k t s G0 U G1 W G2 E UK DS DE V IY. destruct (utc_ok t V IY) as (r & UT & VR & OR & IR & _). destruct (unit_found u k UK) as (k' & EK & L).
  exists (datetime_to_list r), k'. split; [|split; [exact EK|now apply fields_of]]. unfold parse_date_string, parse at 1. rewrite DS. cbn [bind]. unfold split_date_string. subst s. rewrite (split_three g0 u g1 w g2 e) by assumption. unfold parse. rewrite DE. cbn [bind]. rewrite UT. cbn [bind]. now rewrite L.
Qed.
Print Assumptions C123_units.
(** a text that is a date as a whole: the scale is 0 *)
Theorem C123_date : forall du s t, du s = Ok t -> valid_stamp t -> in_years (instant t) -> exists l, parse_date_string du s = Ok (l, 0%Q) /\ utc_fields l (instant t).
Proof.
  intros du s t D V IY. destruct (utc_ok t V IY) as (r & UT & VR & OR & IR & _). exists (datetime_to_list r). split; [|now apply fields_of]. unfold parse_date_string, parse. rewrite D. cbn [bind]. now rewrite UT.
Qed.
(** so a time x in such units becomes the seconds since 1970: x units after the epoch *)
Theorem C123_elapsed : forall du g0 u g1 w g2 e k t x, let s := g0 ++ u ++ g1 ++ w ++ g2 ++ e in
  Forall is_blank g0 -> is_word u -> gap g1 -> is_word w -> gap g2 -> starts e -> is_unit u k ->
  du s = Err ValueError -> du e = Ok t -> valid_stamp t -> in_years (instant t) ->
  exists l k' v, parse_date_string du s = Ok (l, k') /\ convert_delta_time du (x * k') (Fields l) (Fields [1970; 1; 1; 0; 0; 0]) 1 = Ok v /\ (v == inject_Z (instant t) + x * k)%Q.
Proof.
  intros du g0 u g1 w g2 e k t x s G0 U G1 W G2 E UK DS DE V IY. destruct (C123_units du g0 u g1 w g2 e k t) as (l & k' & P & EK & F); try assumption. exists l, k'. fold s in P.
  assert (Z0 : utc_fields [1970; 1; 1; 0; 0; 0] 0). { exists 1970, 1, 1, 0, 0, 0. split; [reflexivity|]. split; [|reflexivity]. repeat split; cbn; lia. }
  unfold convert_delta_time. rewrite (fields_moment du l _ F), (fields_moment du _ _ Z0). cbn [bind]. eexists. split; [exact P|split; [reflexivity|]]. rewrite EK. replace (0 * 1000000 - instant t * 1000000) with (- instant t * 1000000) by lia. rewrite inject_Z_mult, inject_Z_opp. field.
Qed.
Print Assumptions C123_elapsed.
(** epochs of any kind: the difference of the instants in seconds, with its fraction *)
Theorem C123_epochs : forall du d e1 e2 u1 u2 x k, moment du e1 = Ok u1 -> moment du e2 = Ok u2 ->
  convert_datetime du d e1 = Ok (inject_Z (d - u1) / 1000000)%Q /\ convert_delta_time du x e1 e2 k = Ok (k * (x - inject_Z (u2 - u1) / 1000000))%Q.
Proof. intros du d e1 e2 u1 u2 x k H1 H2. unfold convert_datetime, convert_delta_time. rewrite H1, H2. cbn [bind]. split; [reflexivity|]. destruct e1; [| | |discriminate]; cbn [bind]; (destruct e2; [| | |discriminate]; reflexivity). Qed.
Theorem C123_moments : forall du, (forall l i, utc_fields l i -> moment du (Fields l) = Ok (i * 1000000)) /\
  (forall e t, du e = Ok t -> valid_stamp t -> in_years (instant t) -> moment du (Written e) = Ok (instant t * 1000000 + s_us t)) /\
  (forall y m d, valid_greg (mkdate y m d) -> 1 <= y <= 9999 -> moment du (Fields [y; m; d]) = Ok ((gday (mkdate y m d) - gday (mkdate 1970 1 1)) * 86400000000)).
Proof.
  intros du. split; [intros; now apply fields_moment|]. split; [intros; now apply written_moment|]. intros y m d V Y. pose proof V as (VM & VD). cbn [dy dm dd] in *. cbn [moment make_datetime]. rewrite dim_ok by exact VM.
  match goal with |- bind (if ?b then _ else _) _ = _ => replace b with true by (symmetry; rewrite !andb_true_iff, !Z.leb_le; repeat split; lia) end. cbn [bind]. unfold datetime64. cbn [s_y s_mo s_d s_h s_mi s_s s_us]. rewrite ordinal_ok by exact VM. f_equal. lia.
Qed.
(** fields of any number from three to seven: those that are missing are zero *)
Theorem C123_fields : forall du y m d h mi s us l, valid_greg (mkdate y m d) -> 1 <= y <= 9999 -> 0 <= h <= 23 -> 0 <= mi <= 59 -> 0 <= s <= 59 -> 0 <= us <= 999999 ->
  l = [y; m; d; h; mi; s; us] \/ (us = 0 /\ l = [y; m; d; h; mi; s]) \/ (us = 0 /\ s = 0 /\ l = [y; m; d; h; mi]) \/ (us = 0 /\ s = 0 /\ mi = 0 /\ l = [y; m; d; h]) \/ (us = 0 /\ s = 0 /\ mi = 0 /\ h = 0 /\ l = [y; m; d]) ->
  moment du (Fields l) = Ok (((gday (mkdate y m d) - gday (mkdate 1970 1 1)) * 86400 + 3600 * h + 60 * mi + s) * 1000000 + us).
Proof.
  intros du y m d h mi s us l V Y H MI SS US C. pose proof V as (VM & VD). cbn [dy dm dd] in *.
  destruct C as [->|[(-> & ->)|[(-> & -> & ->)|[(-> & -> & -> & ->)|(-> & -> & -> & -> & ->)]]]]; cbn [moment make_datetime]; rewrite dim_ok by exact VM;
  (match goal with |- bind (if ?b then _ else _) _ = _ => replace b with true by (symmetry; rewrite !andb_true_iff, !Z.leb_le; repeat split; lia) end); cbn [bind]; unfold datetime64; cbn [s_y s_mo s_d s_h s_mi s_s s_us]; rewrite ordinal_ok by exact VM; f_equal; lia.
Qed.
Print Assumptions C123_fields.
(** an epoch that is missing, or fields that are no date *)
Theorem C123_bad_epochs : forall du x k d e, convert_datetime du d NoEpoch = Err TypeError /\ (forall u, moment du e = Ok u -> convert_delta_time du x NoEpoch e k = Err TypeError /\ convert_delta_time du x e NoEpoch k = Err TypeError) /\
  (forall l, (List.length l < 3)%nat \/ (7 < List.length l)%nat -> convert_datetime du d (Fields l) = Err TypeError) /\
  (forall y mo dd r, (List.length r <= 4)%nat -> ~ (valid_greg (mkdate y mo dd) /\ 1 <= y <= 9999) -> convert_datetime du d (Fields (y :: mo :: dd :: r)) = Err ValueError) /\
  (forall f x', f <> NoEpoch -> moment du f = Err x' -> convert_delta_time du x f e k = Err x').
Proof.
  intros du x k d e. split; [reflexivity|]. split.
  { intros u H. unfold convert_delta_time. rewrite H. split; destruct e; cbn [bind moment] in *; try rewrite H; cbn [bind]; try reflexivity; discriminate. }
  split. { intros l H. unfold convert_datetime. cbn [moment]. destruct l as [|? [|? [|? [|? [|? [|? [|? [|? ?]]]]]]]]; cbn [List.length make_datetime bind] in *; try reflexivity; lia. }
  split.
  - intros y mo dd r L H. assert (G : forall b : bool, ((1 <=? y) && (y <=? 9999) && (1 <=? mo) && (mo <=? 12) && (1 <=? dd) && (dd <=? days_in_month y mo))%bool = false).
    { intros _. apply not_true_is_false. rewrite !andb_true_iff, !Z.leb_le. intros X. apply H. rewrite dim_ok in X by lia. split; [split; cbn [TimeSpec.dy TimeSpec.dm TimeSpec.dd]; lia|lia]. } specialize (G true).
    unfold convert_datetime. cbn [moment]. destruct r as [|? [|? [|? [|? [|? ?]]]]]; cbn [List.length make_datetime] in *; try lia; rewrite G; reflexivity.
  - intros f x' N H. unfold convert_delta_time. rewrite H. destruct f; try reflexivity. now destruct N.
Qed.

(** texts that give no unit and epoch *)
Theorem C123_failures : forall du s, 
  (forall x, x <> ValueError -> du s = Err x -> parse_date_string du s = Err x) /\
  (forall t, du s = Ok t -> valid_stamp t -> ~ in_years (instant t) -> parse_date_string du s = Err OtherExn) /\
  (du s = Err ValueError -> few s -> parse_date_string du s = Err ValueError) /\
  (forall g0 u g1 w g2 e, s = g0 ++ u ++ g1 ++ w ++ g2 ++ e -> Forall is_blank g0 -> is_word u -> gap g1 -> is_word w -> gap g2 -> starts e -> du s = Err ValueError ->
    (forall x, du e = Err x -> parse_date_string du s = Err x) /\
    (forall t, du e = Ok t -> valid_stamp t -> ~ in_years (instant t) -> parse_date_string du s = Err OtherExn) /\
    (forall t, du e = Ok t -> valid_stamp t -> in_years (instant t) -> (forall k, ~ is_unit u k) -> parse_date_string du s = Err ValueError)).
Proof.
  intros du s. split; [|split; [|split]].
  - intros x N D. unfold parse_date_string, parse. rewrite D. cbn [bind]. destruct x; try reflexivity. now destruct N.
  - intros t D V IY. unfold parse_date_string, parse. rewrite D. cbn [bind]. now rewrite (utc_out t V IY).
  - intros D F. destruct (split_few s F) as (l & E & L). unfold parse_date_string, parse at 1. rewrite D. cbn [bind]. unfold split_date_string. rewrite E. destruct l as [|? [|? [|? ?]]]; cbn [List.length] in L; try reflexivity. lia.
  - intros g0 u g1 w g2 e ES G0 U G1 W G2 E D.
    assert (H : parse_date_string du s = (do (units, t) <- (do t <- parse du e; Ok (map lower u, t)); match look (string_of_list_ascii units) to_sec with None => Err ValueError | Some v => Ok (datetime_to_list t, v) end)).
    { unfold parse_date_string, parse at 1. rewrite D. cbn [bind]. unfold split_date_string. rewrite ES, (split_three g0 u g1 w g2 e) by assumption. reflexivity. }
    rewrite H. unfold parse. split; [intros x DE; rewrite DE; reflexivity|]. split; intros t DE V IY; rewrite DE; cbn [bind]; [now rewrite (utc_out t V IY)|]. intros N. destruct (utc_ok t V IY) as (r & UT & _). rewrite UT. cbn [bind].
    destruct (look _ to_sec) as [v|] eqn:LK; [|reflexivity]. exfalso. apply (N v). now apply unit_only.
Qed.
Print Assumptions C123_failures.
(** REFUTED: the fraction of a second of the epoch is lost: the fields are before the epoch *)
Theorem C123_fraction_refuted : forall du s l k t, du s = Ok t -> valid_stamp t -> in_years (instant t) -> s_us t <> 0 -> parse_date_string du s = Ok (l, k) ->
  exists a b, moment du (Fields l) = Ok a /\ moment du (Written s) = Ok b /\ a < b /\ b - a = s_us t.
Proof.
  intros du s l k t D V IY N P. destruct (C123_date du s t D V IY) as (l' & P' & F). rewrite P in P'. injection P' as <- ->. exists (instant t * 1000000), (instant t * 1000000 + s_us t).
  split; [now apply fields_moment|]. split; [now apply written_moment|]. destruct V as (_ & _ & _ & _ & _ & US & _). lia.
Qed.
(** REFUTED: the word between unit and epoch has no effect ("days before 2000-01-01" is read as "days since") *)
Theorem C123_word_refuted : forall du g0 u g1 w w' g2 e k t, let s := fun w => g0 ++ u ++ g1 ++ w ++ g2 ++ e in
  Forall is_blank g0 -> is_word u -> gap g1 -> is_word w -> is_word w' -> gap g2 -> starts e -> is_unit u k ->
  du (s w) = Err ValueError -> du (s w') = Err ValueError -> du e = Ok t -> valid_stamp t -> in_years (instant t) -> parse_date_string du (s w) = parse_date_string du (s w') /\ is_ok (parse_date_string du (s w)) = true.
Proof.
  intros du g0 u g1 w w' g2 e k t s G0 U G1 W W' G2 E UK D D' DE V IY. destruct (C123_units du g0 u g1 w g2 e k t) as (l & k' & P & _); try assumption. split; [|fold (s w) in P; now rewrite P].
  assert (H : forall v, is_word v -> du (s v) = Err ValueError -> parse_date_string du (s v) = (do (units, t) <- (do t <- parse du e; Ok (map lower u, t)); match look (string_of_list_ascii units) to_sec with None => Err ValueError | Some v => Ok (datetime_to_list t, v) end)).
  { intros v WV DV. unfold parse_date_string, parse at 1. rewrite DV. cbn [bind]. unfold split_date_string, s. rewrite (split_three g0 u g1 v g2 e) by assumption. reflexivity. }
  now rewrite (H w), (H w').
Qed.
(** REFUTED: a year is not twelve months, and not 365 days *)
Theorem C123_months_refuted : forall m y c d km ky kc kd, m = list_ascii_of_string "months" -> y = list_ascii_of_string "years" -> c = list_ascii_of_string "common_years" -> d = list_ascii_of_string "days" ->
  is_unit m km -> is_unit y ky -> is_unit c kc -> is_unit d kd -> (12 * km < kc /\ kc < ky /\ kc == 365 * kd /\ 12 * km == 360 * kd /\ ky == (36525 # 100) * kd)%Q.
Proof.
  intros m y c d km ky kc kd -> -> -> -> M Y C D.
  assert (G : forall u k, is_unit u k -> exists k', (k' == k)%Q /\ look (string_of_list_ascii (map lower u)) to_sec = Some k') by apply unit_found.
  destruct (G _ _ M) as (a & EA & LA). destruct (G _ _ Y) as (b & EB & LB). destruct (G _ _ C) as (e & EC & LC). destruct (G _ _ D) as (f & ED & LD).
  vm_compute in LA, LB, LC, LD. injection LA as <-. injection LB as <-. injection LC as <-. injection LD as <-. rewrite <- EA, <- EB, <- EC, <- ED. repeat split; reflexivity.
Qed.
Print Assumptions C123_months_refuted.

(** an example: three hours east of Greenwich, in the first hours of a year *)
Definition ex_text : text := list_ascii_of_string "Days since  2000-01-01T01:30:00+03:00".
Definition ex_du (s : text) : res stamp := if String.eqb (string_of_list_ascii s) "2000-01-01T01:30:00+03:00" then Ok (mkstamp 2000 1 1 1 30 0 0 (Some 10800)) else Err ValueError.
Example example_time_string : parse_date_string ex_du ex_text = Ok ([1999; 12; 31; 22; 30; 0], 86400%Q) /\ convert_delta_time ex_du (2 * 86400) (Fields [1999; 12; 31; 22; 30; 0]) (Fields [2000; 1; 1]) 1 = Ok (1 * (2 * 86400 - inject_Z 5400000000 / 1000000))%Q /\
  is_unit (list_ascii_of_string "Days") 86400 /\ (forall k, ~ is_unit (list_ascii_of_string "weeks") k) /\ in_years (instant (mkstamp 2000 1 1 1 30 0 0 (Some 10800))).
Proof.
  split; [vm_compute; reflexivity|]. split; [vm_compute; reflexivity|]. split; [exists "days"%string; split; [vm_compute; tauto|]; repeat constructor; cbn; lia|]. split.
  - intros k H. destruct (unit_found _ _ H) as (k' & _ & L). vm_compute in L. discriminate.
  - split; vm_compute; discriminate.
Qed.
