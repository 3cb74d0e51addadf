(** C83 low degree SLR fields (read_SLR_harmonics.py): weekly and monthly files. *)
From Coq Require Import QArith Qround Qreals Reals Lqa Lia ZifyBool ZArith List.
From Verif Require Import Base TimeModel TimeSpec TimeProofs2 SlrModel CsrModel PropSlr PropSlr2.
Import ListNotations.
Close Scope R_scope. Open Scope Z_scope.

(** ** Specification *)
(** row r gives degree l, order m *)
Definition row_for (l m : nat) (r : line) : Prop := (num r 0 == inject_Z (Z.of_nat l))%Q /\ (num r 1 == inject_Z (Z.of_nat m))%Q.
(** the last row for (l, m) among [rows] *)
Definition last_for (l m : nat) (rows : list line) (r : line) : Prop :=
  exists A B, rows = A ++ r :: B /\ row_for l m r /\ forall x, In x B -> ~ row_for l m x.
(** coefficient (l, m): column k of its last row times the scale, zero if there is none *)
Definition entry (rows : list line) (k : nat) (scale : Q) (l m : nat) (v : Q) : Prop :=
  (forall r, last_for l m rows r -> v = (num r k * scale)%Q) /\ ((forall r, In r rows -> ~ row_for l m r) -> v = 0%Q).
(** a well formed row: degree and order between 0 and 6, at least n numbers *)
Definition row_good (n : nat) (r : line) : Prop := (n <= length (nums r))%nat /\ (2 <= length (nums r))%nat /\ exists l m, (l <= 6)%nat /\ (m <= 6)%nat /\ row_for l m r.
(** a well formed block *)
Definition block_good (n h : nat) (b : list line) : Prop := exists d rows, b = d :: rows /\ length rows = 19%nat /\ (h <= length (nums d))%nat /\ Forall (row_good n) rows.

Lemma to_int_ok q k : (q == inject_Z k)%Q -> to_int q = Ok k.
Proof.
  intros H. unfold to_int. assert (E : Qred q = inject_Z k). { rewrite (Qred_complete _ _ H). unfold inject_Z. unfold Qred. pose proof (Z.ggcd_gcd k 1) as G. pose proof (Z.ggcd_correct_divisors k 1) as D.
    destruct (Z.ggcd k 1) as [g [a b]]. cbn [fst] in G. rewrite Z.gcd_1_r in G. subst g. destruct D as [D1 D2]. cbn [snd]. rewrite Z.mul_1_l in D1, D2. rewrite <- D1, <- D2. reflexivity. }
  rewrite E. reflexivity.
Qed.
Lemma idx_ok l : (l <= 6)%nat -> idx (Z.of_nat l) = Ok l.
Proof. intros H. unfold idx. replace (Z.of_nat l <? 0) with false by lia. replace ((0 <=? Z.of_nat l) && (Z.of_nat l <? 7))%bool with true by lia. rewrite Nat2Z.id. reflexivity. Qed.
Lemma inj_Z_inj a b : (inject_Z (Z.of_nat a) == inject_Z (Z.of_nat b))%Q -> a = b.
Proof. unfold Qeq, inject_Z. cbn. lia. Qed.
Lemma put_ok (c s ec es n : nat) scale y r : row_good n r -> (c < n)%nat -> (s < n)%nat -> (ec < n)%nat -> (es < n)%nat -> exists l m, row_for l m r /\
  put (Z.of_nat c) (Z.of_nat s) (Z.of_nat ec) (Z.of_nat es) scale y r =
  Ok (mkylms (cset (y_c y) l m (num r c * scale)) (cset (y_s y) l m (num r s * scale)) (cset (y_ec y) l m (num r ec * scale)) (cset (y_es y) l m (num r es * scale)))%Q.
Proof.
  intros (L & L2 & l & m & Hl & Hm & F) C1 C2 C3 C4. exists l, m. split; [exact F|]. destruct F as [F1 F2]. unfold put. change 0 with (Z.of_nat 0). change 1 with (Z.of_nat 1).
  rewrite !col_ok by lia. cbn [bind]. rewrite (to_int_ok _ _ F1). cbn [bind]. rewrite (to_int_ok _ _ F2). cbn [bind]. rewrite !idx_ok by assumption. cbn [bind]. reflexivity.
Qed.
Lemma foldM_snoc {A B} (f : B -> A -> res B) l a b : foldM f (l ++ [a]) b = do x <- foldM f l b; f x a.
Proof. unfold foldM. rewrite fold_left_app. reflexivity. Qed.
Lemma entry_nil k scale l m : entry [] k scale l m 0%Q.
Proof. split; auto. intros r (A & B & E & _). destruct A; discriminate. Qed.
Lemma entry_snoc rows r k scale l0 m0 f l m : row_for l0 m0 r -> entry rows k scale l m (f l m) -> entry (rows ++ [r]) k scale l m (cset f l0 m0 (num r k * scale)%Q l m).
Proof.
  intros F [E1 E2]. unfold cset. destruct (Nat.eqb_spec l l0), (Nat.eqb_spec m m0); cbn [andb]; subst; split.
  - intros x (A & B & E & Fx & NB). destruct B as [|b B] using rev_ind; [apply app_inj_tail in E; destruct E as [_ <-]; reflexivity|].
    exfalso. rewrite app_comm_cons, app_assoc in E. apply app_inj_tail in E. destruct E as [_ <-]. apply (NB r); [apply in_or_app; right; left; auto|exact F].
  - intros H. exfalso. apply (H r); [apply in_or_app; right; left; auto|exact F].
  - intros x (A & B & E & Fx & NB). destruct B as [|b B _] using rev_ind.
    + apply app_inj_tail in E. destruct E as [_ <-]. exfalso. destruct F as [_ F], Fx as [_ Fx]. apply n. apply inj_Z_inj. rewrite <- F, <- Fx. reflexivity.
    + rewrite app_comm_cons, app_assoc in E. apply app_inj_tail in E. destruct E as [-> _]. apply E1. exists A, B. split; [reflexivity|]. split; [exact Fx|]. intros y Hy. apply NB, in_or_app. auto.
  - intros H. apply E2. intros x Hx. apply H, in_or_app. auto.
  - intros x (A & B & E & Fx & NB). destruct B as [|b B _] using rev_ind.
    + apply app_inj_tail in E. destruct E as [_ <-]. exfalso. destruct F as [F _], Fx as [Fx _]. apply n. apply inj_Z_inj. rewrite <- F, <- Fx. reflexivity.
    + rewrite app_comm_cons, app_assoc in E. apply app_inj_tail in E. destruct E as [-> _]. apply E1. exists A, B. split; [reflexivity|]. split; [exact Fx|]. intros y Hy. apply NB, in_or_app. auto.
  - intros H. apply E2. intros x Hx. apply H, in_or_app. auto.
  - intros x (A & B & E & Fx & NB). destruct B as [|b B _] using rev_ind.
    + apply app_inj_tail in E. destruct E as [_ <-]. exfalso. destruct F as [F _], Fx as [Fx _]. apply n. apply inj_Z_inj. rewrite <- F, <- Fx. reflexivity.
    + rewrite app_comm_cons, app_assoc in E. apply app_inj_tail in E. destruct E as [-> _]. apply E1. exists A, B. split; [reflexivity|]. split; [exact Fx|]. intros y Hy. apply NB, in_or_app. auto.
  - intros H. apply E2. intros x Hx. apply H, in_or_app. auto.
Qed.
Lemma fold_put (c s ec es n : nat) scale rows : Forall (row_good n) rows -> (c < n)%nat -> (s < n)%nat -> (ec < n)%nat -> (es < n)%nat ->
  exists y, foldM (put (Z.of_nat c) (Z.of_nat s) (Z.of_nat ec) (Z.of_nat es) scale) rows yzero = Ok y /\
    forall l m, entry rows c scale l m (y_c y l m) /\ entry rows s scale l m (y_s y l m) /\ entry rows ec scale l m (y_ec y l m) /\ entry rows es scale l m (y_es y l m).
Proof.
  intros F C1 C2 C3 C4. induction rows as [|r rows IH] using rev_ind.
  - exists yzero. split; [reflexivity|]. intros l m. exact (conj (entry_nil _ _ _ _) (conj (entry_nil _ _ _ _) (conj (entry_nil _ _ _ _) (entry_nil _ _ _ _)))).
  - apply Forall_app in F. destruct F as [F Fr]. inversion Fr as [|? ? G _]; subst. destruct (IH F) as (y & E & H). rewrite foldM_snoc, E. cbn [bind].
    destruct (put_ok c s ec es n scale y r G C1 C2 C3 C4) as (l0 & m0 & Fo & ->). eexists. split; [reflexivity|]. intros l m. destruct (H l m) as (H1 & H2 & H3 & H4). cbn [y_c y_s y_ec y_es].
    split; [|split; [|split]]; apply entry_snoc; assumption.
Qed.
Lemma blocks_ok bs tail : Forall (fun b => length b = 20%nat) bs -> (length tail < 20)%nat ->
  blocks (length (concat bs ++ tail) / (n_harm + 1)) (concat bs ++ tail) = bs.
Proof.
  intros F T. change (n_harm + 1)%nat with 20%nat.
  assert (L : length (concat bs) = (length bs * 20)%nat) by (induction F as [|b l H F IH]; cbn [concat length]; [reflexivity|rewrite app_length, H, IH; lia]).
  rewrite app_length, L. rewrite Nat.div_add_l, (Nat.div_small (length tail)), Nat.add_0_r by lia. clear L.
  induction F as [|b l H F IH]; [reflexivity|]. cbn [length blocks concat]. change (n_harm + 1)%nat with 20%nat. rewrite <- app_assoc. rewrite firstn_app, skipn_app. rewrite <- H, Nat.sub_diag, firstn_all, skipn_all. cbn [firstn skipn app]. rewrite app_nil_r. f_equal. exact IH.
Qed.
Lemma blocks_len n h bs : Forall (block_good n h) bs -> Forall (fun b => length b = 20%nat) bs.
Proof. intros F. eapply Forall_impl; [|exact F]. intros b (d & rows & -> & L & _). cbn [length]. lia. Qed.
(** one week of the weekly file *)
Definition week_of (scale : Q) (b : list line) (w : week) : Prop := exists d rows, b = d :: rows /\ w_mjd w = num d 0 /\ w_time w = num d 1 /\
  forall l m, entry rows 2 scale l m (y_c (w_y w) l m) /\ entry rows 3 scale l m (y_s (w_y w) l m).
(** every complete block of 20 lines after the header is one week; lines after the last complete block are ignored *)
Theorem C83_weekly : forall scale hdr last bs tail, is_file hdr last -> Forall (block_good 4 2) bs -> (length tail < 20)%nat ->
  exists ws, GSFC_weekly scale true (hdr ++ last :: concat bs ++ tail) = Ok ws /\ Forall2 (week_of scale) bs ws.
Proof.
  intros scale hdr last bs tail F G T. unfold GSFC_weekly. cbn [body]. rewrite skip_ok by exact F. cbn [bind]. rewrite blocks_ok by (eauto using blocks_len).
  induction G as [|b l (d & rows & -> & L & Hd & R) G IH]; [exists []; split; [reflexivity|constructor]|]. destruct IH as (ws & E & H).
  destruct (fold_put 2 3 2 3 4 scale rows R) as (y & Ey & Hy); try lia.
  assert (Eb : weekly_block scale (d :: rows) = Ok (mkweek (num d 0) (num d 1) y)).
  { unfold weekly_block. change 0 with (Z.of_nat 0) at 1. change 1 with (Z.of_nat 1) at 1. rewrite !col_ok by lia. cbn [bind].
    change (Z.of_nat 2) with 2 in Ey. change (Z.of_nat 3) with 3 in Ey. rewrite Ey. reflexivity. }
  cbn [mapM]. rewrite Eb. cbn [bind]. rewrite E. cbn [bind]. eexists. split; [reflexivity|]. constructor; [|exact H].
  exists d, rows. cbn [w_mjd w_time w_y]. split; [reflexivity|]. split; [reflexivity|]. split; [reflexivity|]. intros l0 m0. split; apply (Hy l0 m0).
Qed.

(** ** Monthly files *)
Section Monthly.
Context (is_end is_bar : line -> bool).
(** a monthly file: header with a bar, the 19 rows of the mean field after it, no later bar; then the end of the header *)
Definition csr_header (pre : list line) (bar : line) (mean mid : list line) (last : line) : Prop :=
  Forall (fun l => is_end l = false) (pre ++ bar :: mean ++ mid) /\ is_bar bar = true /\ Forall (fun l => is_bar l = false) (mean ++ mid ++ [last]) /\ is_end last = true /\
  length mean = 19%nat /\ Forall (row_good 6) mean.
(** the date line of month number k (from 0): number, calendar year and month, first and last modified Julian day *)
Definition date_good (k : nat) (h : line) (yy mm : Z) : Prop :=
  (7 <= length (nums h))%nat /\ (num h 0 == inject_Z (Z.of_nat (k + 1)))%Q /\ (num h 3 == inject_Z yy)%Q /\ (num h 4 == inject_Z mm)%Q /\ 1 <= mm <= 12.
Definition csr_good (k : nat) (b : list line) : Prop := exists h rows yy mm, b = h :: rows /\ length rows = 19%nat /\ date_good k h yy mm /\ Forall (row_good 8) rows.
(** month of a block: mean field plus anomaly times the scale, errors added in quadrature; middle of the calendar month *)
Definition month_of (scale : Q) (mean : list line) (k : nat) (b : list line) (x : csr) : Prop := exists h rows yy mm, b = h :: rows /\ date_good k h yy mm /\
  (c_mjd x * 2 == num h 5 + num h 6)%Q /\
  (yy mod 4000 <> 0 -> (c_time x == inject_Z yy + (inject_Z (gday (mkdate yy mm 1) - gday (mkdate yy 1 1)) + inject_Z (month_len (greg_leap yy) mm) / 2) / inject_Z (gday (mkdate (yy + 1) 1 1) - gday (mkdate yy 1 1)))%Q) /\
  forall l m, exists a c ea ec a' c' ea' ec', entry rows 2 scale l m a /\ entry mean 2 1 l m c /\ entry rows 6 scale l m ea /\ entry mean 4 1 l m ec /\
    entry rows 3 scale l m a' /\ entry mean 3 1 l m c' /\ entry rows 7 scale l m ea' /\ entry mean 5 1 l m ec' /\
    c_c x l m = (a + c)%Q /\ c_s x l m = (a' + c')%Q /\ c_ec x l m = sqrt (Q2R ea ^ 2 + Q2R ec ^ 2) /\ c_es x l m = sqrt (Q2R ea' ^ 2 + Q2R ec' ^ 2).
Lemma header_skip A B n i : Forall (fun l => is_end l = false) A -> Forall (fun l => is_bar l = false) A -> header is_end is_bar n i (A ++ B) = header is_end is_bar (n + length A) i B.
Proof.
  revert n. induction A as [|a A IH]; intros n F G; cbn [app length]; [rewrite Nat.add_0_r; reflexivity|]. inversion F; inversion G; subst. cbn [header]. rewrite H5, H1. rewrite IH by assumption. f_equal. lia.
Qed.
Lemma header_pre A B n i : Forall (fun l => is_end l = false) A -> exists j, header is_end is_bar n i (A ++ B) = header is_end is_bar (n + length A) j B.
Proof.
  revert n i. induction A as [|a A IH]; intros n i F; cbn [app length]; [exists i; rewrite Nat.add_0_r; reflexivity|]. inversion F; subst. cbn [header]. rewrite H1.
  destruct (IH (n + 1)%nat (if is_bar a then Some (n + 1)%nat else i) H2) as [j E]. exists j. rewrite E. f_equal. lia.
Qed.
Lemma mid_month yy mm : 1 <= mm <= 12 -> yy mod 4000 <> 0 ->
  (convert_calendar_decimal yy mm None None None None None == inject_Z yy + (inject_Z (gday (mkdate yy mm 1) - gday (mkdate yy 1 1)) + inject_Z (month_len (greg_leap yy) mm) / 2) / inject_Z (gday (mkdate (yy + 1) 1 1) - gday (mkdate yy 1 1)))%Q.
Proof.
  intros Hm Y. pose proof (DecimalProofs.year_len_eq yy) as YL. unfold DecimalProofs.year_len, DecimalProofs.year_start in YL. rewrite YL. clear YL.
  assert (G : gday (mkdate yy mm 1) - gday (mkdate yy 1 1) = before_month (greg_leap yy) mm) by (unfold gday; cbn [dy dm dd]; change (before_month (greg_leap yy) 1) with 0; lia). rewrite G. clear G.
  unfold convert_calendar_decimal, oz. pose proof (TimeProofs.branches_exclusive yy) as B. rewrite (TimeProofs.leap_branch_greg yy) in *. replace (yy mod 4000 =? 0) with false in * by lia. cbn [negb] in *. rewrite andb_true_r in *.
  assert (K : (mm = 1 \/ mm = 2 \/ mm = 3 \/ mm = 4 \/ mm = 5 \/ mm = 6 \/ mm = 7 \/ mm = 8 \/ mm = 9 \/ mm = 10 \/ mm = 11 \/ mm = 12)%Z) by lia.
  rewrite B. destruct (stnd_branch yy); cbn [negb]; unfold day_of_year; repeat (destruct K as [->|K]); try subst mm;
    cbn -[inject_Z Qplus Qdiv Qmult Qeq]; repeat match goal with |- context[Pos.to_nat ?p] => let n := eval compute in (Pos.to_nat p) in change (Pos.to_nat p) with n end;
    cbn -[inject_Z Qplus Qdiv Qmult Qeq]; generalize (inject_Z yy); intros q; unfold inject_Z; field.
Qed.
Lemma csr_block_ok scale mean y k b : csr_good k b -> (forall l m, entry mean 2 1 l m (y_c y l m) /\ entry mean 3 1 l m (y_s y l m) /\ entry mean 4 1 l m (y_ec y l m) /\ entry mean 5 1 l m (y_es y l m)) ->
  exists x, csr_block scale y k b = Ok x /\ month_of scale mean k b x.
Proof.
  intros (h & rows & yy & mm & -> & L & D & R) M. destruct (fold_put 2 3 6 7 8 scale rows R) as (z & Ez & Hz); try lia. unfold csr_block.
  pose proof D as (L7 & D0 & D3 & D4 & Dm). change 0 with (Z.of_nat 0) at 1. rewrite col_ok by lia. cbn [bind]. rewrite (to_int_ok _ _ D0). cbn [bind]. rewrite Z.eqb_refl. cbn [negb].
  destruct (nums h) as [|n0 [|n1 [|n2 [|n3 [|n4 [|n5 [|n6 ns]]]]]]] eqn:EN; cbn [length] in L7; try lia. assert (S1 : slice 5 7 (n0 :: n1 :: n2 :: n3 :: n4 :: n5 :: n6 :: ns) = [n5; n6]) by reflexivity. assert (S2 : slice 3 5 (n0 :: n1 :: n2 :: n3 :: n4 :: n5 :: n6 :: ns) = [n3; n4]) by reflexivity.
  assert (K3 : num h 3 = n3) by (unfold num; rewrite EN; reflexivity). assert (K4 : num h 4 = n4) by (unfold num; rewrite EN; reflexivity). assert (K5 : num h 5 = n5) by (unfold num; rewrite EN; reflexivity). assert (K6 : num h 6 = n6) by (unfold num; rewrite EN; reflexivity).
  rewrite S1, S2. cbn [qmean bind]. rewrite K3 in D3. rewrite K4 in D4. rewrite (to_int_ok _ _ D3). cbn [bind]. rewrite (to_int_ok _ _ D4). cbn [bind]. replace ((1 <=? mm) && (mm <=? 12))%bool with true by lia. cbn [negb].
  change (Z.of_nat 2) with 2 in Ez. change (Z.of_nat 3) with 3 in Ez. change (Z.of_nat 6) with 6 in Ez. change (Z.of_nat 7) with 7 in Ez. rewrite Ez. cbn [bind]. eexists. split; [reflexivity|].
  exists h, rows, yy, mm. cbn [c_mjd c_time c_c c_s c_ec c_es]. split; [reflexivity|]. split; [exact D|]. split; [rewrite K5, K6; cbn [qsum fold_right length]; change (inject_Z (Z.of_nat 2)) with 2%Q; field|].
  split; [intros Y; apply mid_month; auto|]. intros l m. destruct (Hz l m) as (Z1 & Z2 & Z3 & Z4). destruct (M l m) as (M1 & M2 & M3 & M4).
  exists (y_c z l m), (y_c y l m), (y_ec z l m), (y_ec y l m), (y_s z l m), (y_s y l m), (y_es z l m), (y_es y l m). repeat (split; [assumption|]). unfold cadd, quad_err. auto.
Qed.
Theorem C83_monthly : forall scale pre bar mean mid last bs tail, csr_header pre bar mean mid last ->
  (forall k b, nth_error bs k = Some b -> csr_good k b) -> (length tail < 20)%nat ->
  exists xs, CSR_monthly is_end is_bar scale (pre ++ bar :: mean ++ mid ++ last :: concat bs ++ tail) = Ok xs /\ length xs = length bs /\
    forall k b, nth_error bs k = Some b -> exists x, nth_error xs k = Some x /\ month_of scale mean k b x.
Proof.
  intros scale pre bar mean mid last bs tail (H1 & H2 & H3 & H4 & H5 & H6) G T. unfold CSR_monthly.
  apply Forall_app in H1. destruct H1 as [P1 P2]. inversion P2 as [|? ? P3 P4]; subst. rewrite app_assoc in H3. apply Forall_app in H3. destruct H3 as [B1 B2]. inversion B2 as [|? ? B3 _]; subst.
  destruct (header_pre pre (bar :: mean ++ mid ++ last :: concat bs ++ tail) 0 None P1) as [j ->]. cbn [header]. rewrite H2, P3. rewrite app_assoc. rewrite header_skip by assumption. cbn [header]. rewrite B3, H4. cbn [bind].
  set (file := pre ++ bar :: (mean ++ mid) ++ last :: concat bs ++ tail).
  assert (S1 : skipn (0 + length pre + 1) file = mean ++ mid ++ last :: concat bs ++ tail).
  { unfold file. rewrite skipn_app, skipn_all2 by lia. replace (0 + length pre + 1 - length pre)%nat with 1%nat by lia. cbn [skipn app]. rewrite <- app_assoc. reflexivity. }
  unfold mean_field. replace (length file <? 0 + length pre + 1 + n_harm)%nat with false.
  2:{ symmetry. apply Nat.ltb_ge. unfold file. rewrite !app_length. cbn [length]. rewrite !app_length, H5. change n_harm with 19%nat. lia. }
  rewrite S1. rewrite firstn_app. change n_harm with 19%nat at 2. rewrite H5. rewrite firstn_all2 by (rewrite H5; reflexivity). cbn [Nat.sub firstn]. rewrite app_nil_r.
  destruct (fold_put 2 3 4 5 6 1 mean H6) as (y & Ey & Hy); try lia. change (Z.of_nat 2) with 2 in Ey. change (Z.of_nat 3) with 3 in Ey. change (Z.of_nat 4) with 4 in Ey. change (Z.of_nat 5) with 5 in Ey. rewrite Ey. cbn [bind].
  assert (S2 : skipn (0 + length pre + 1 + length (mean ++ mid) + 1) file = concat bs ++ tail).
  { unfold file. rewrite skipn_app, skipn_all2 by lia. cbn [app]. replace (0 + length pre + 1 + length (mean ++ mid) + 1 - length pre)%nat with (S (length (mean ++ mid) + 1)) by lia. cbn [skipn]. rewrite skipn_app, skipn_all2 by lia.
    replace (length (mean ++ mid) + 1 - length (mean ++ mid))%nat with 1%nat by lia. reflexivity. }
  rewrite S2. rewrite blocks_ok; [|apply Forall_forall; intros b Hb; apply In_nth_error in Hb; destruct Hb as [k Hk]; destruct (G k b Hk) as (h & rows & yy & mm & -> & L & _); cbn [length]; lia|exact T].
  assert (X : forall n l, (forall k b, nth_error l k = Some b -> csr_good (n + k) b) -> exists xs, csr_blocks scale y n l = Ok xs /\ length xs = length l /\ forall k b, nth_error l k = Some b -> exists x, nth_error xs k = Some x /\ month_of scale mean (n + k) b x).
  { intros n l. revert n. induction l as [|b l IH]; intros n Gl; [exists []; split; [reflexivity|]; split; [reflexivity|]; intros [|k] b; discriminate|].
    destruct (csr_block_ok scale mean y n b) as (x & Ex & Mx); [rewrite <- (Nat.add_0_r n); apply Gl; reflexivity|exact Hy|]. cbn [csr_blocks]. rewrite Ex. cbn [bind].
    destruct (IH (n + 1)%nat) as (xs & Exs & Lx & Hx); [intros k c Hk; replace (n + 1 + k)%nat with (n + S k)%nat by lia; apply Gl; exact Hk|]. rewrite Exs. cbn [bind]. exists (x :: xs). split; [reflexivity|]. split; [cbn [length]; lia|].
    intros [|k] c Hk; cbn [nth_error] in *; [injection Hk as <-; rewrite Nat.add_0_r; eauto|]. replace (n + S k)%nat with (n + 1 + k)%nat by lia. apply Hx. exact Hk. }
  apply (X 0%nat). exact G.
Qed.
(** a header without a bar is refused, and so is a file whose month numbers are not 1, 2, 3, ... *)
Theorem C83_no_mean : forall scale hdr last rest, Forall (fun l => is_end l = false) hdr -> Forall (fun l => is_bar l = false) (hdr ++ [last]) -> is_end last = true ->
  CSR_monthly is_end is_bar scale (hdr ++ last :: rest) = Err OtherExn.
Proof.
  intros scale hdr last rest H1 H2 H3. apply Forall_app in H2. destruct H2 as [H2 H4]. inversion H4; subst. unfold CSR_monthly. rewrite header_skip by assumption. cbn [header]. rewrite H3, H5. reflexivity.
Qed.
End Monthly.
(** months of the zonal series: the calendar month of the modified Julian day *)
Theorem C83_month : forall x c mjd, valid_greg x -> valid_tod c -> 2299161 <= gday x -> (mjd == inject_Z (gday x - 2400001) + day_fraction c)%Q ->
  mjd_grace mjd = 12 * (dy x - 2002) + dm x.
Proof.
  intros x c mjd V T G E. unfold mjd_grace. destruct (convert_julian_greg x c V G T (mjd + (4800001 # 2))%Q) as (s & -> & _).
  - rewrite E. unfold Z.sub. rewrite inject_Z_plus. change (inject_Z (-(2400001))) with (-(2400001))%Q. ring.
  - apply TimeProofs.calendar_to_grace_Z.
Qed.

(** zonal coefficient of degree l of a weekly file, at the requested dates: average of the 28 nearest days, zero error *)
Theorem C83_zonal_weekly : forall f l hdr last bs tail DATE HEADER, sorts f -> is_file hdr last -> Forall (block_good 4 2) bs -> bs <> [] -> (length tail < 20)%nat ->
  exists ws r, Forall2 (week_of 1) bs ws /\ zonal_weekly f l HEADER DATE (hdr ++ last :: concat bs ++ tail) = Ok r /\
    s_month r = adjust_months (adjust_months (map (fun u => calendar_to_grace u 1) (s_time r))) /\ length (s_vals r) = length DATE /\ length (s_time r) = length DATE /\
    forall i, (i < length DATE)%nat -> exists sel x, nearest_days (map w_time ws) 28 (nth i DATE 0%Q) sel /\ average (map (day_of (map w_time ws)) sel) (nth i (s_time r) 0%Q) /\
      nth i (s_vals r) [] = [x; 0%Q] /\ average (map (value_of (map (fun w => y_c (w_y w) l 0%nat) ws)) sel) x.
Proof.
  intros f l hdr last bs tail DATE HEADER S F G NE T. destruct (C83_weekly 1 hdr last bs tail F G T) as (ws & E & H2). exists ws. unfold zonal_weekly. rewrite E. cbn [bind].
  destruct (C82_weekly f (map w_time ws) (map (fun w => y_c (w_y w) l 0%nat) ws) DATE 28 S) as (r & Er & M & L1 & L2 & H); [|rewrite !map_length; reflexivity|lia|].
  { intros X. apply map_eq_nil in X. subst ws. inversion H2; subst. congruence. }
  rewrite Er. cbn [bind]. eexists. split; [exact H2|]. split; [reflexivity|]. cbn [s_month s_vals s_time]. rewrite M, map_length. split; [reflexivity|]. split; [exact L1|]. split; [exact L2|].
  intros i Hi. destruct (H i Hi) as (sel & x & P1 & P2 & P3 & P4). exists sel, x. split; [exact P1|]. split; [exact P2|]. split; [|exact P4].
  rewrite (nth_map_seq _ _ []) by lia. rewrite P3. reflexivity.
Qed.
(** Refuted: "adjusting the months once is enough" - the second adjustment of the weekly readers changes the months *)
Theorem C83_adjusted_twice_refuted : exists gm, adjust_months (adjust_months gm) <> adjust_months gm.
Proof. exists [4; 5; 5; 6]. vm_compute. discriminate. Qed.
(** concrete files: 19 rows of degree 2, one month and one week *)
Definition ex_row : line := mkline false [2; 0; 7; 8; 9; 10; 11; 12]%Q false false.
Definition ex_date : line := mkline false [1; 0; 0; 2005; 3; 53430; 53461]%Q false false.
Lemma ex_rows n : (n <= 8)%nat -> Forall (row_good n) (repeat ex_row 19).
Proof. intros H. apply Forall_forall. intros x Hx. apply repeat_spec in Hx. subst x. split; [exact H|]. split; [cbn; lia|]. exists 2%nat, 0%nat. split; [lia|]. split; [lia|]. split; reflexivity. Qed.
Example C83_nonvacuous : csr_good 0 (ex_date :: repeat ex_row 19) /\ block_good 4 2 (ex_date :: repeat ex_row 19) /\ last_for 2 0 (repeat ex_row 19) ex_row /\
  let e := fun l => h_end l in let b := fun l => star l in let bar := mkline false [] true false in let last := mkline true [] false false in
  csr_header e b [] bar (repeat ex_row 19) [] last.
Proof.
  split; [exists ex_date, (repeat ex_row 19), 2005, 3; split; [reflexivity|]; split; [reflexivity|]; split; [split; [cbn; lia|]; split; [reflexivity|]; split; [reflexivity|]; split; [reflexivity|lia]|apply ex_rows; lia]|].
  split; [exists ex_date, (repeat ex_row 19); split; [reflexivity|]; split; [reflexivity|]; split; [cbn; lia|apply ex_rows; lia]|].
  split; [exists (repeat ex_row 18), []; split; [reflexivity|]; split; [split; reflexivity|intros x []]|].
  cbv zeta. split; [|split; [reflexivity|split; [|split; [reflexivity|split; [reflexivity|apply ex_rows; lia]]]]]; repeat constructor.
Qed.
