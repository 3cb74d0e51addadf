(** C84 glacial isostatic adjustment models (read_GIA_model.py). *)
From Coq Require Import QArith Lqa Lia ZifyBool ZifyNat ZArith List.
From Verif Require Import Base SlrModel GiaModel PropSlr PropSlr2 PropSlr3.
Import ListNotations.
Open Scope Z_scope.
Ltac Zify.zify_post_hook ::= Z.to_euclidean_division_equations.

(** ** Specification: tables of degree, order, cosine, sine *)
(** lines with numbers *)
Definition numbered (ls : list line) : list line := filter (fun r => negb (Nat.eqb (length (nums r)) 0)) ls.
(** such a line starts with a degree and an order, and has four numbers if they are at most n *)
Definition table_line (n : nat) (r : line) : Prop := exists l m : nat, row_for l m r /\ (2 <= length (nums r))%nat /\ ((l <= n)%nat -> (m <= n)%nat -> (4 <= length (nums r))%nat).
(** coefficients of a model up to degree and order n *)
Definition coefficients_of (rows : list line) (scale : Q) (n : nat) (c s : coefs) : Prop :=
  forall l m, (l <= n)%nat -> (m <= n)%nat -> entry rows 2 scale l m (c l m) /\ entry rows 3 scale l m (s l m).
(** the first model of the spherical harmonics that has line number (l+1)^2/4 + m/2: two orders on each line *)
Definition ice_line (l m : nat) : nat := ((l + 1) * (l + 1) / 4 + m / 2)%nat.
Definition ice_column (m : nat) : nat := match m with 0 => 1 | 1 => 3 | _ => if Nat.even m then 0 else 2 end%nat.

(** ** Lemmas *)
Lemma nidx_ok n l : (l <= n)%nat -> nidx (n + 1) (Z.of_nat l) = Ok l.
Proof. intros H. unfold nidx. replace (Z.of_nat l <? 0) with false by lia. replace ((0 <=? Z.of_nat l) && (Z.of_nat l <? Z.of_nat (n + 1)))%bool with true by lia. rewrite Nat2Z.id. reflexivity. Qed.
Lemma entry_skip rows r k scale l0 m0 l m v : row_for l0 m0 r -> (l0 <> l \/ m0 <> m) -> entry rows k scale l m v -> entry (rows ++ [r]) k scale l m v.
Proof.
  intros F D E. assert (X := entry_snoc rows r k scale l0 m0 (fun a b => if (Nat.eqb a l && Nat.eqb b m)%bool then v else 0%Q) l m F). cbn beta in X.
  rewrite !Nat.eqb_refl in X. cbn [andb] in X. specialize (X E). unfold cset in X. rewrite !Nat.eqb_refl in X. cbn [andb] in X.
  destruct (Nat.eqb_spec l l0), (Nat.eqb_spec m m0); cbn [andb] in X; try exact X. exfalso. lia.
Qed.
Lemma table_ok n scale : forall rows done y, Forall (table_line n) (numbered rows) -> coefficients_of done scale n (fst y) (snd y) ->
  exists y', foldM (gia_row n scale) rows y = Ok y' /\ coefficients_of (done ++ numbered rows) scale n (fst y') (snd y').
Proof.
  intros rows done y F C. induction rows as [|r rows IH] using rev_ind; [exists y; split; [reflexivity|]; rewrite app_nil_r; exact C|].
  unfold numbered in *. rewrite filter_app in F |- *. apply Forall_app in F. destruct F as [F Fr]. destruct (IH F) as (y1 & E & C1). rewrite foldM_snoc, E. cbn [bind filter] in *.
  unfold gia_row. destruct (nums r) as [|q ns] eqn:EN; cbn [length Nat.eqb negb] in *; [exists y1; rewrite app_nil_r; auto|].
  inversion Fr as [|? ? (l & m & RF & L2 & L4) _]; subst. destruct (RF) as [R1 R2]. change 0 with (Z.of_nat 0) at 1. change 1 with (Z.of_nat 1) at 1. rewrite !col_ok by lia. cbn [bind].
  rewrite (to_int_ok _ _ R1). cbn [bind]. rewrite (to_int_ok _ _ R2). cbn [bind]. destruct (Nat.le_gt_cases l n) as [Hl|Hl]; [destruct (Nat.le_gt_cases m n) as [Hm|Hm]|].
  - replace ((Z.of_nat l <=? Z.of_nat n) && (Z.of_nat m <=? Z.of_nat n))%bool with true by lia. rewrite !nidx_ok by auto. cbn [bind]. specialize (L4 Hl Hm).
    change 2 with (Z.of_nat 2) at 1. change 3 with (Z.of_nat 3) at 1. rewrite !col_ok by lia. cbn [bind]. eexists. split; [reflexivity|]. cbn [fst snd]. intros a b Ha Hb. rewrite app_assoc. split; (apply entry_snoc; [exact RF|apply C1; auto]).
  - replace ((Z.of_nat l <=? Z.of_nat n) && (Z.of_nat m <=? Z.of_nat n))%bool with false by lia. exists y1. split; [reflexivity|]. intros a b Ha Hb. rewrite app_assoc. destruct (C1 a b Ha Hb). split; apply (entry_skip _ _ _ _ l m); auto; lia.
  - replace ((Z.of_nat l <=? Z.of_nat n) && (Z.of_nat m <=? Z.of_nat n))%bool with false by lia. exists y1. split; [reflexivity|]. intros a b Ha Hb. rewrite app_assoc. destruct (C1 a b Ha Hb). split; apply (entry_skip _ _ _ _ l m); auto; lia.
Qed.
Lemma zero_coefficients scale n : coefficients_of [] scale n czero czero.
Proof. intros l m _ _. split; apply entry_nil. Qed.
Lemma wrap h1 h2 k f LMAX MMAX y : k <> GIA_other -> f_exists f = true -> f_name f = true -> gia_fields h1 h2 k f (use_lmax k LMAX) = Ok y ->
  read_GIA_model h1 h2 k f LMAX MMAX = Ok (mkgia (use_lmax k LMAX) (mmax_cols (use_lmax k LMAX + 1) MMAX) (fst y) (snd y)).
Proof. intros K E N G. unfold read_GIA_model, name_check. rewrite E, N, G. destruct k; try reflexivity; congruence. Qed.

(** Tables of degree, order, cosine, sine (five models): every line with numbers counts, the last one for a coefficient wins,
    coefficients without a line are zero, degrees or orders above LMAX are left out *)
Theorem C84_tables : forall h1 h2 k f LMAX MMAX, k = IJ05 \/ k = W12a \/ k = SM09 \/ k = AW13_ICE6G \/ k = AW13_IJ05 -> f_exists f = true -> f_name f = true ->
  Forall (table_line (use_lmax k LMAX)) (numbered (f_lines f)) ->
  exists g, read_GIA_model h1 h2 k f LMAX MMAX = Ok g /\ g_lmax g = use_lmax k LMAX /\
    coefficients_of (numbered (f_lines f)) (match k with IJ05 => 1 # 100000000000 | _ => 1 end) (use_lmax k LMAX) (g_c g) (g_s g).
Proof.
  intros h1 h2 k f LMAX MMAX K E N F. set (n := use_lmax k LMAX) in *. destruct (table_ok n (gia_scale k) (f_lines f) [] fzero F (zero_coefficients _ _)) as (y & Y & C).
  assert (KO : k <> GIA_other) by (decompose [or] K; subst; discriminate).
  exists (mkgia n (mmax_cols (n + 1) MMAX) (fst y) (snd y)). split; [apply wrap; auto; fold n; decompose [or] K; subst k; exact Y|]. split; [reflexivity|]. cbn [g_c g_s]. decompose [or] K; subst k; exact C.
Qed.
(** ICE6G-D: the six lines after the first title, then all lines after the second *)
Theorem C84_two_sections : forall h1 h2 f A t1 t2 six rest mid LMAX MMAX, f_exists f = true -> f_name f = true ->
  f_lines f = A ++ t1 :: six ++ mid ++ t2 :: rest -> length six = 6%nat -> h1 t1 = true -> h2 t2 = true -> h1 t2 = false -> h2 t1 = false ->
  Forall (fun r => h1 r = false /\ h2 r = false) (A ++ six ++ mid ++ rest) -> Forall (table_line (use_lmax ICE6GD LMAX)) (numbered (six ++ rest)) ->
  exists g, read_GIA_model h1 h2 ICE6GD f LMAX MMAX = Ok g /\ g_lmax g = use_lmax ICE6GD LMAX /\ coefficients_of (numbered (six ++ rest)) 1 (use_lmax ICE6GD LMAX) (g_c g) (g_s g).
Proof.
  intros h1 h2 f A t1 t2 six rest mid LMAX MMAX E N EL L6 H1 H2 H12 H21 FB F. set (n := use_lmax ICE6GD LMAX) in *.
  apply Forall_app in FB. destruct FB as [FA FB]. apply Forall_app in FB. destruct FB as [F6 FB]. apply Forall_app in FB. destruct FB as [Fm Fr].
  assert (SK : forall h ls k rest', Forall (fun r => h r = false) ls -> after h k (ls ++ rest') = after h (k + length ls) rest').
  { intros h ls. induction ls as [|x ls IH]; intros k rest' G; cbn [app length]; [rewrite Nat.add_0_r; reflexivity|]. inversion G; subst. cbn [after]. rewrite H3. cbn [app]. rewrite IH by auto. f_equal. lia. }
  assert (NO : forall h ls k, Forall (fun r => h r = false) ls -> after h k ls = []) by (intros h ls k G; rewrite <- (app_nil_r ls), SK by auto; reflexivity).
  assert (P : forall b ls, Forall (fun r => h1 r = false /\ h2 r = false) ls -> Forall (fun r => (if b : bool then h1 r else h2 r) = false) ls) by (intros b ls G; eapply Forall_impl; [|exact G]; intros r [? ?]; destruct b; auto).
  assert (A1 : after h1 0 (f_lines f) = [(length A + 1)%nat]).
  { rewrite EL, SK by apply (P true _ FA). cbn [after]. rewrite H1. cbn [app]. rewrite !SK by first [apply (P true _ F6)|apply (P true _ Fm)]. cbn [after]. rewrite H12, NO by apply (P true _ Fr). reflexivity. }
  assert (A2 : after h2 0 (f_lines f) = [(length A + 1 + 6 + length mid + 1)%nat]).
  { rewrite EL, SK by apply (P false _ FA). cbn [after]. rewrite H21. cbn [app]. rewrite !SK by first [apply (P false _ F6)|apply (P false _ Fm)]. cbn [after]. rewrite H2, NO by apply (P false _ Fr). rewrite L6. reflexivity. }
  unfold numbered in F. rewrite filter_app in F. apply Forall_app in F. destruct F as [G6 Gr].
  destruct (table_ok n 1 six [] fzero G6 (zero_coefficients _ _)) as (y & Y & C). destruct (table_ok n 1 rest (numbered six) y Gr C) as (y' & Y' & C').
  assert (ST : skipn (length A + 1 + 6 + length mid + 1) (f_lines f) = rest).
  { rewrite EL. rewrite skipn_app, skipn_all2 by lia. replace (length A + 1 + 6 + length mid + 1 - length A)%nat with (S (6 + length mid + 1)) by lia. cbn [app skipn]. rewrite skipn_app, skipn_all2 by lia. rewrite L6. replace (6 + length mid + 1 - 6)%nat with (length mid + 1)%nat by lia.
    rewrite skipn_app, skipn_all2 by lia. replace (length mid + 1 - length mid)%nat with 1%nat by lia. reflexivity. }
  assert (Y6 : foldM (fun y ii => do r <- py_get (f_lines f) (Z.of_nat ii); gia_row n 1 y r) (seq (length A + 1) 6) fzero = Ok y).
  { assert (Q6 : forall s j z, (forall i, (i < length s)%nat -> nth_error (f_lines f) (j + i) = nth_error s i) ->
      foldM (fun y ii => do r <- py_get (f_lines f) (Z.of_nat ii); gia_row n 1 y r) (seq j (length s)) z = foldM (gia_row n 1) s z).
    { clear. intros s j z. revert z. unfold foldM. generalize (@Ok fields). intros ok.
      assert (X : forall j (w : res fields), (forall i, (i < length s)%nat -> nth_error (f_lines f) (j + i) = nth_error s i) ->
        fold_left (fun r a => do x <- r; do r0 <- py_get (f_lines f) (Z.of_nat a); gia_row n 1 x r0) (seq j (length s)) w = fold_left (fun r a => do x <- r; gia_row n 1 x a) s w); [|intros z H; apply X; exact H].
      clear. induction s as [|x s IH]; intros j w H; [reflexivity|]. cbn [length seq fold_left]. rewrite IH.
      - f_equal. destruct w as [w|]; [|reflexivity]. cbn [bind]. specialize (H 0%nat ltac:(cbn; lia)). rewrite Nat.add_0_r in H. cbn [nth_error] in H.
        assert (Lj : (j < length (f_lines f))%nat) by (apply nth_error_Some; congruence). rewrite (py_get_ok _ _ x) by exact Lj. cbn [bind]. rewrite (nth_error_nth _ _ _ H). reflexivity.
      - intros i Hi. specialize (H (S i) ltac:(cbn [length]; lia)). cbn [nth_error] in H. rewrite <- H. f_equal. lia. }
    rewrite <- L6. rewrite Q6; [exact Y|]. intros i Hi. rewrite EL. rewrite nth_error_app2 by lia. replace (length A + 1 + i - length A)%nat with (S i) by lia. cbn [nth_error]. apply nth_error_app1. exact Hi. }
  exists (mkgia n (mmax_cols (n + 1) MMAX) (fst y') (snd y')). split; [apply wrap; auto; [discriminate|]|].
  - fold n. cbn [gia_fields]. unfold ice6gd. rewrite A1, A2. cbn [the_one bind]. rewrite Y6. cbn [bind]. rewrite ST. exact Y'.
  - split; [reflexivity|]. cbn [g_c g_s]. unfold numbered in *. rewrite filter_app. exact C'.
Qed.

(** ** ICE6G *)
(** the line of (l, m) is there, and is empty or long enough *)
Definition ice_ok (ls : list line) (l m : nat) : Prop := exists r, nth_error ls (ice_line l m) = Some r /\ (nums r = [] \/ (ice_column m + 2 <= length (nums r))%nat).
(** number k (0 cosine, 1 sine) of (l, m); zero if the line is empty *)
Definition ice_value (ls : list line) (l m k : nat) (v : Q) : Prop := exists r, nth_error ls (ice_line l m) = Some r /\
  (nums r = [] -> v = 0%Q) /\ (nums r <> [] -> v = (num r (ice_column m + k) * (1 # 100000000000))%Q).
Lemma square_step l : ((l + 1) * (l + 1) / 4 + (l + 1 + 1) / 2 = (S l + 1) * (S l + 1) / 4)%nat.
Proof.
  destruct (Nat.Even_or_Odd l) as [[k ->]|[k ->]].
  - rewrite <- (Nat.div_unique ((2 * k + 1) * (2 * k + 1)) 4 (k * k + k) 1) by lia. rewrite <- (Nat.div_unique (2 * k + 1 + 1) 2 (k + 1) 0) by lia. rewrite <- (Nat.div_unique ((S (2 * k) + 1) * (S (2 * k) + 1)) 4 ((k + 1) * (k + 1)) 0) by lia. lia.
  - rewrite <- (Nat.div_unique ((2 * k + 1 + 1) * (2 * k + 1 + 1)) 4 ((k + 1) * (k + 1)) 0) by lia. rewrite <- (Nat.div_unique (2 * k + 1 + 1 + 1) 2 (k + 1) 1) by lia. rewrite <- (Nat.div_unique ((S (2 * k + 1) + 1) * (S (2 * k + 1) + 1)) 4 (k * k + 3 * k + 2) 1) by lia. lia.
Qed.
Definition ice_inv (ls : list line) (l m : nat) (st : ice) : Prop :=
  i_pos st = ((l + 1) * (l + 1) / 4 + (m + 1) / 2)%nat /\
  ((0 < m)%nat -> exists r, nth_error ls (ice_line l (m - 1)) = Some r /\ i_line st = nums r) /\
  forall a b, (((a < l)%nat /\ (b <= a)%nat) \/ (a = l /\ (b < m)%nat) -> ice_value ls a b 0 (fst (i_y st) a b) /\ ice_value ls a b 1 (snd (i_y st) a b)) /\
    (~ (((a < l)%nat /\ (b <= a)%nat) \/ (a = l /\ (b < m)%nat)) -> fst (i_y st) a b = 0%Q /\ snd (i_y st) a b = 0%Q).
Lemma ice_step_ok ls l m st : ice_ok ls l m -> ice_inv ls l m st -> exists st', ice_step ls (gia_scale ICE6G) l st m = Ok st' /\ ice_inv ls l (m + 1) st'.
Proof.
  intros (r & R & LR) (I1 & I2 & I3).
  assert (X : exists st1, (if Nat.even m then do q <- py_get ls (Z.of_nat (i_pos st)); Ok (mkice (i_pos st + 1) (nums q) (i_y st)) else Ok st) = Ok st1 /\
    i_pos st1 = ((l + 1) * (l + 1) / 4 + (m + 1 + 1) / 2)%nat /\ i_line st1 = nums r /\ i_y st1 = i_y st).
  { unfold ice_line in R. destruct (Nat.even m) eqn:P.
    - apply Nat.even_spec in P. destruct P as [k P]. assert (EP : i_pos st = ((l + 1) * (l + 1) / 4 + m / 2)%nat) by (rewrite I1; f_equal; lia).
      rewrite EP. rewrite (py_get_ok _ _ r) by (apply nth_error_Some; congruence). cbn [bind]. rewrite (nth_error_nth _ _ _ R). eexists. split; [reflexivity|]. cbn [i_pos i_line i_y]. split; [lia|auto].
    - assert (O : Nat.odd m = true) by (unfold Nat.odd; rewrite P; reflexivity). apply Nat.odd_spec in O. destruct O as [k O]. exists st. split; [reflexivity|]. split; [rewrite I1; lia|]. split; [|reflexivity].
      destruct I2 as (q & Q & ->); [lia|]. unfold ice_line in Q. replace ((m - 1) / 2)%nat with (m / 2)%nat in Q by lia. congruence. }
  destruct X as (st1 & E & P1 & P2 & P3). unfold ice_step. rewrite E. cbn [bind].
  assert (DR : forall a b, (a < l \/ b < m)%nat \/ ~ (((a < l)%nat /\ (b <= a)%nat) \/ (a = l /\ (b < m + 1)%nat)) \/ (a = l /\ b = m) \/ (((a < l)%nat /\ (b <= a)%nat) \/ (a = l /\ (b < m)%nat))) by lia. clear DR.
  rewrite P2. destruct (nums r) as [|q ns] eqn:EN.
  - exists st1. split; [reflexivity|]. split; [exact P1|]. split; [intros _; rewrite Nat.add_sub; exists r; rewrite EN; auto|]. rewrite P3. intros a b. destruct (I3 a b) as [J1 J2]. split.
    + intros H. destruct (Nat.eq_dec a l) as [->|Na]; [destruct (Nat.eq_dec b m) as [->|Nb]|]; [|apply J1; lia|apply J1; lia].
      destruct J2 as [-> ->]; [lia|]. split; exists r; (split; [exact R|split; [reflexivity|congruence]]).
    + intros H. apply J2. lia.
  - destruct LR as [LR|LR]; [congruence|]. set (c := (if Nat.even m then 0 else 2) + (if (m =? 0)%nat || (m =? 1)%nat then 1 else 0)).
    assert (C : c = Z.of_nat (ice_column m)) by (unfold c, ice_column; destruct m as [|[|m]]; [reflexivity|reflexivity|]; destruct (Nat.even (S (S m))); reflexivity).
    replace (0 + c) with (Z.of_nat (ice_column m + 0)) by lia. replace (1 + c) with (Z.of_nat (ice_column m + 1)) by lia. rewrite !(py_get_ok _ _ 0%Q) by lia. cbn [bind]. eexists. split; [reflexivity|].
    split; [exact P1|]. split; [intros _; rewrite Nat.add_sub; exists r; rewrite EN; auto|]. cbn [i_y]. rewrite P3. intros a b. cbn [fst snd]. unfold cset. destruct (I3 a b) as [J1 J2]. split.
    + intros H. destruct (Nat.eqb_spec a l) as [->|Na]; [destruct (Nat.eqb_spec b m) as [->|Nb]|]; cbn [andb]; [|apply J1; lia|apply J1; lia].
      split; exists r; (split; [exact R|split; [congruence|intros _; unfold num; rewrite EN; reflexivity]]).
    + intros H. destruct (Nat.eqb_spec a l) as [->|Na]; [destruct (Nat.eqb_spec b m) as [->|Nb]|]; cbn [andb]; [exfalso; lia|apply J2; lia|apply J2; lia].
Qed.
Lemma seq_snoc a n : seq a (n + 1) = seq a n ++ [(a + n)%nat].
Proof. rewrite Nat.add_1_r. apply seq_S. Qed.
Lemma ice_degree_ok ls l st : (forall m, (m <= l)%nat -> ice_ok ls l m) -> ice_inv ls l 0 st -> exists st', ice_degree ls (gia_scale ICE6G) st l = Ok st' /\ ice_inv ls (S l) 0 st'.
Proof.
  intros F J. unfold ice_degree. assert (X : forall k, (k <= l + 1)%nat -> exists st', foldM (ice_step ls (gia_scale ICE6G) l) (seq 0 k) st = Ok st' /\ ice_inv ls l k st').
  { induction k as [|k IH]; intros Hk; [exists st; auto|]. destruct IH as (st1 & E & J1); [lia|]. rewrite <- Nat.add_1_r, seq_snoc, foldM_snoc, E. cbn [bind]. apply ice_step_ok; [apply F; lia|exact J1]. }
  destruct (X (l + 1)%nat) as (st' & E & I1 & I2 & I3); [lia|]. exists st'. split; [exact E|]. split; [rewrite I1, square_step; change ((0 + 1) / 2)%nat with 0%nat; lia|]. split; [lia|].
  intros a b. destruct (I3 a b) as [J1 J2]. split; intros H; [apply J1; lia|apply J2; lia].
Qed.
(** ICE6G: coefficient (l, m) is on line (l+1)^2/4 + m/2, in the columns of its order; empty lines give zero *)
Theorem C84_ice6g : forall h1 h2 f LMAX MMAX, let n := use_lmax ICE6G LMAX in f_exists f = true -> f_name f = true -> (forall l m, (l <= n)%nat -> (m <= l)%nat -> ice_ok (f_lines f) l m) ->
  exists g, read_GIA_model h1 h2 ICE6G f LMAX MMAX = Ok g /\ g_lmax g = n /\
    (forall l m, (l <= n)%nat -> (m <= l)%nat -> ice_value (f_lines f) l m 0 (g_c g l m) /\ ice_value (f_lines f) l m 1 (g_s g l m)) /\
    (forall l m, (l < m)%nat -> g_c g l m = 0%Q /\ g_s g l m = 0%Q).
Proof.
  intros h1 h2 f LMAX MMAX n E N F.
  assert (X : forall k, (k <= n + 1)%nat -> exists st, foldM (ice_degree (f_lines f) (gia_scale ICE6G)) (seq 0 k) (mkice 0 [] fzero) = Ok st /\ ice_inv (f_lines f) k 0 st).
  { induction k as [|k IH]; intros Hk.
    - exists (mkice 0 [] fzero). split; [reflexivity|]. split; [reflexivity|]. split; [lia|]. intros a b. split; [lia|]. intros _. split; reflexivity.
    - destruct IH as (st1 & E1 & J1); [lia|]. rewrite <- Nat.add_1_r, seq_snoc, foldM_snoc, E1. cbn [bind]. rewrite Nat.add_1_r. apply ice_degree_ok; [intros m Hm; apply F; lia|exact J1]. }
  destruct (X (n + 1)%nat) as (st & E1 & _ & _ & I3); [lia|]. exists (mkgia n (mmax_cols (n + 1) MMAX) (fst (i_y st)) (snd (i_y st))).
  split; [apply wrap; auto; [discriminate|]; fold n; cbn [gia_fields]; unfold ice6g; rewrite E1; reflexivity|]. cbn [g_lmax g_c g_s]. split; [reflexivity|].
  split; intros l m; [intros Hl Hm; apply I3; lia|intros H; apply (proj2 (I3 l m)); lia].
Qed.
(** a file that is too short *)
Lemma foldM_err {A B} (f : B -> A -> res B) l e : fold_left (fun r a => do x <- r; f x a) l (Err e) = Err e.
Proof. induction l; cbn; auto. Qed.
Lemma foldM_app {A B} (f : B -> A -> res B) l l' b : foldM f (l ++ l') b = do x <- foldM f l b; foldM f l' x.
Proof. unfold foldM. rewrite fold_left_app. destruct (fold_left _ l (Ok b)); [reflexivity|]. cbn [bind]. apply foldM_err. Qed.

(** ** Wu10: values in the order C10, C11, S11, C20, C21, S21, C22, S22, ... *)
Definition wu_inv (d : list Q) (l m : nat) (st : nat * fields) : Prop :=
  fst st = (l * l - 1 + (2 * m - 1))%nat /\
  forall a b, (((1 <= a < l)%nat /\ (b <= a)%nat) \/ (a = l /\ (b < m)%nat) -> fst (snd st) a b = (nth (a * a - 1 + (2 * b - 1)) d 0 / 6371000000)%Q /\ (snd (snd st) a b = if (b =? 0)%nat then 0 else nth (a * a - 1 + 2 * b) d 0 / 6371000000)%Q) /\
    (~ (((1 <= a < l)%nat /\ (b <= a)%nat) \/ (a = l /\ (b < m)%nat)) -> fst (snd st) a b = 0%Q /\ snd (snd st) a b = 0%Q).
Lemma wu_step_ok d l m st : (1 <= l)%nat -> (l * l - 1 + 2 * m < length d)%nat -> wu_inv d l m st -> exists st', wu_step d l st m = Ok st' /\ wu_inv d l (m + 1) st'.
Proof.
  intros Hl L [I1 I3]. destruct st as [ii y]. cbn [fst snd] in *. subst ii. unfold wu_step. assert (SQ : (1 <= l * l)%nat) by nia. rewrite (py_get_ok _ _ 0%Q) by lia. cbn [bind]. destruct (Nat.eqb_spec m 0) as [->|Hm].
  - eexists. split; [reflexivity|]. split; [cbn [fst]; lia|]. intros a b. cbn [fst snd]. unfold cset. destruct (I3 a b) as [J1 J2]. split; intros H.
    + destruct (Nat.eqb_spec a l) as [->|Na]; [destruct (Nat.eqb_spec b 0) as [->|Nb]|]; cbn [andb]; [|exfalso; lia|apply J1; lia]. destruct J2 as [_ ->]; [lia|]. split; [reflexivity|reflexivity].
    + destruct (Nat.eqb_spec a l) as [->|Na]; [destruct (Nat.eqb_spec b 0) as [->|Nb]|]; cbn [andb]; [exfalso; lia|apply J2; lia|apply J2; lia].
  - replace (l * l - 1 + (2 * m - 1) + 1)%nat with (l * l - 1 + 2 * m)%nat by lia. rewrite (py_get_ok _ _ 0%Q) by lia. cbn [bind]. eexists. split; [reflexivity|]. split; [cbn [fst]; lia|]. intros a b. cbn [fst snd]. unfold cset. destruct (I3 a b) as [J1 J2]. split; intros H.
    + destruct (Nat.eqb_spec a l) as [->|Na]; [destruct (Nat.eqb_spec b m) as [->|Nb]|]; cbn [andb]; [|apply J1; lia|apply J1; lia]. split; [reflexivity|]. destruct (Nat.eqb_spec m 0); [lia|reflexivity].
    + destruct (Nat.eqb_spec a l) as [->|Na]; [destruct (Nat.eqb_spec b m) as [->|Nb]|]; cbn [andb]; [exfalso; lia|apply J2; lia|apply J2; lia].
Qed.
Lemma wu_degrees d k : ((k + 1) * (k + 1) - 1 <= length d)%nat -> exists st, foldM (fun st l => foldM (wu_step d l) (seq 0 (l + 1)) st) (seq 1 k) (0%nat, fzero) = Ok st /\ wu_inv d (k + 1) 0 st.
Proof.
  induction k as [|k IH]; intros L.
  - exists (0%nat, fzero). split; [reflexivity|]. split; [reflexivity|]. intros a b. split; [lia|]. intros _. split; reflexivity.
  - destruct IH as (st & E & J); [nia|]. replace (S k) with (k + 1)%nat by lia. rewrite seq_snoc, foldM_snoc, E. cbn [bind]. replace (1 + k)%nat with (k + 1)%nat by lia. set (l := (k + 1)%nat) in *.
    assert (X : forall j, (j <= l + 1)%nat -> exists st', foldM (wu_step d l) (seq 0 j) st = Ok st' /\ wu_inv d l j st').
    { induction j as [|j IHj]; intros Hj; [exists st; auto|]. destruct IHj as (st1 & E1 & J1); [lia|]. rewrite <- Nat.add_1_r, seq_snoc, foldM_snoc, E1. cbn [bind]. apply wu_step_ok; [lia| |exact J1]. nia. }
    destruct (X (l + 1)%nat) as (st' & E' & I1 & I3); [lia|]. exists st'. split; [exact E'|]. split; [rewrite I1; nia|]. intros a b. destruct (I3 a b) as [J1 J2]. split; intros H; [apply J1; lia|apply J2; lia].
Qed.
Theorem C84_wu10 : forall h1 h2 f LMAX MMAX, let n := use_lmax Wu10 LMAX in let d := f_values f in f_exists f = true -> ((n + 1) * (n + 1) - 1 <= length d)%nat ->
  exists g, read_GIA_model h1 h2 Wu10 f LMAX MMAX = Ok g /\ g_lmax g = n /\
    (forall l m, (1 <= l <= n)%nat -> (m <= l)%nat -> g_c g l m = (nth (l * l - 1 + (2 * m - 1)) d 0 / 6371000000)%Q) /\
    (forall l m, (1 <= l <= n)%nat -> (1 <= m <= l)%nat -> g_s g l m = (nth (l * l - 1 + 2 * m) d 0 / 6371000000)%Q) /\
    (forall l m, (l = 0 \/ l < m)%nat -> g_c g l m = 0%Q /\ g_s g l m = 0%Q) /\ (forall l, g_s g l 0%nat = 0%Q).
Proof.
  intros h1 h2 f LMAX MMAX n d E L. destruct (wu_degrees d n L) as (st & W & _ & J). exists (mkgia n (mmax_cols (n + 1) MMAX) (fst (snd st)) (snd (snd st))).
  split. { unfold read_GIA_model. fold n. rewrite E. cbn [bind gia_fields]. unfold wu10. fold d. rewrite W. cbn [bind]. unfold name_check. destruct (f_name f); reflexivity. }
  cbn [g_lmax g_c g_s]. split; [reflexivity|]. split; [intros l m H1 H2; apply J; lia|]. split; [intros l m H1 H2; destruct (proj1 (J l m)) as [_ ->]; [lia|]; destruct (Nat.eqb_spec m 0); [lia|reflexivity]|].
  split; [intros l m H; apply (proj2 (J l m)); lia|]. intros l. destruct (Nat.le_gt_cases 1 l) as [H|H]; [destruct (Nat.le_gt_cases l n) as [H'|H']|].
  - destruct (proj1 (J l 0%nat)) as [_ ->]; [lia|]. reflexivity.
  - apply (proj2 (J l 0%nat)); lia.
  - apply (proj2 (J l 0%nat)); lia.
Qed.
Lemma py_get_cases {A} (l : list A) k : (exists a, py_get l (Z.of_nat k) = Ok a /\ (k < length l)%nat) \/ (py_get l (Z.of_nat k) = Err IndexError /\ (length l <= k)%nat).
Proof.
  destruct (Nat.lt_ge_cases k (length l)) as [H|H].
  - left. destruct l as [|a l]; [cbn in H; lia|]. exists (nth k (a :: l) a). split; [apply py_get_ok; exact H|exact H].
  - right. split; [|exact H]. unfold py_get. replace (Z.of_nat k <? 0) with false by lia. replace (nth_error l (Z.to_nat (Z.of_nat k))) with (@None A) by (symmetry; apply nth_error_None; lia). try reflexivity.
    destruct ((0 <=? Z.of_nat k) && (Z.of_nat k <? Z.of_nat (length l)))%bool eqn:X; [lia|reflexivity].
Qed.
Lemma wu_any d l m ii y : (ii <= length d)%nat -> wu_step d l (ii, y) m = Err IndexError \/ exists y', wu_step d l (ii, y) m = Ok ((ii + (if (m =? 0)%nat then 1 else 2))%nat, y') /\ (ii + (if (m =? 0)%nat then 1 else 2) <= length d)%nat.
Proof.
  intros L. unfold wu_step. destruct (py_get_cases d ii) as [(a & -> & H)|[-> H]]; cbn [bind]; [|left; reflexivity]. destruct (m =? 0)%nat; [right; eexists; split; [reflexivity|lia]|].
  destruct (py_get_cases d (ii + 1)) as [(b & -> & H')|[-> H']]; cbn [bind]; [right; eexists; split; [reflexivity|lia]|left; reflexivity].
Qed.
(** Wu10 files with too few values are refused *)
Theorem C84_wu10_short : forall h1 h2 f LMAX MMAX, let n := use_lmax Wu10 LMAX in f_exists f = true -> (length (f_values f) < (n + 1) * (n + 1) - 1)%nat ->
  read_GIA_model h1 h2 Wu10 f LMAX MMAX = Err IndexError.
Proof.
  intros h1 h2 f LMAX MMAX n E L. set (d := f_values f) in *.
  assert (X : forall l j st, (fst st <= length d)%nat -> foldM (wu_step d l) (seq 0 j) st = Err IndexError \/ exists y', foldM (wu_step d l) (seq 0 j) st = Ok ((fst st + (2 * j - 1))%nat, y') /\ (fst st + (2 * j - 1) <= length d)%nat).
  { intros l j st Hs. induction j as [|j IH]; [right; exists (snd st); split; [cbn; rewrite Nat.add_0_r; destruct st; reflexivity|lia]|]. rewrite <- Nat.add_1_r, seq_snoc, foldM_snoc. destruct IH as [->|(y' & -> & H)]; cbn [bind]; [left; reflexivity|].
    change (0 + j)%nat with j. destruct (wu_any d l j _ y' H) as [->|(y2 & -> & H2)]; [left; reflexivity|]. right. exists y2. destruct (Nat.eqb_spec j 0) as [->|Hj]; (split; [f_equal; f_equal; lia|lia]). }
  assert (Y : forall k, foldM (fun st l => foldM (wu_step d l) (seq 0 (l + 1)) st) (seq 1 k) (0%nat, fzero) = Err IndexError \/ exists y', foldM (fun st l => foldM (wu_step d l) (seq 0 (l + 1)) st) (seq 1 k) (0%nat, fzero) = Ok (((k + 1) * (k + 1) - 1)%nat, y') /\ ((k + 1) * (k + 1) - 1 <= length d)%nat).
  { induction k as [|k IH]; [right; exists fzero; split; [reflexivity|lia]|]. replace (S k) with (k + 1)%nat by lia. rewrite seq_snoc, foldM_snoc. destruct IH as [->|(y' & -> & H)]; cbn [bind]; [left; reflexivity|].
    destruct (X (1 + k)%nat (1 + k + 1)%nat (((k + 1) * (k + 1) - 1)%nat, y')) as [->|(y2 & -> & H2)]; [exact H|left; reflexivity|]. right. exists y2. cbn [fst] in *. split; [f_equal; f_equal; lia|lia]. }
  unfold read_GIA_model. fold n. rewrite E. cbn [bind gia_fields]. unfold wu10. fold d. destruct (Y n) as [->|(y' & -> & H)]; [reflexivity|lia].
Qed.

(** ** Caron: rows of degree, order and value; negative orders are sine coefficients *)
Definition last_row (l m : Z) (rows : list (Z * Z * Q)) (v : Q) : Prop := exists A B, rows = A ++ (l, m, v) :: B /\ forall w, ~ In (l, m, w) B.
Definition row_value (l m : Z) (rows : list (Z * Z * Q)) (x : Q) : Prop := (forall v, last_row l m rows v -> x = v) /\ ((forall v, ~ In (l, m, v) rows) -> x = 0%Q).
Lemma row_value_snoc_same l m rows v : row_value l m (rows ++ [(l, m, v)]) v.
Proof.
  split; [|intros H; exfalso; apply (H v), in_or_app; right; left; auto]. intros w (A & B & E & NB). destruct B as [|b B _] using rev_ind; [apply app_inj_tail in E; destruct E as [_ E]; congruence|].
  exfalso. rewrite app_comm_cons, app_assoc in E. apply app_inj_tail in E. destruct E as [_ <-]. apply (NB v), in_or_app. right; left; auto.
Qed.
Lemma row_value_snoc_other l m rows l' m' v x : (l' <> l \/ m' <> m) -> row_value l m rows x -> row_value l m (rows ++ [(l', m', v)]) x.
Proof.
  intros D [H1 H2]. split.
  - intros w (A & B & E & NB). destruct B as [|b B _] using rev_ind; [apply app_inj_tail in E; destruct E as [_ E]; exfalso; injection E; intros; lia|].
    rewrite app_comm_cons, app_assoc in E. apply app_inj_tail in E. destruct E as [-> _]. apply H1. exists A, B. split; [reflexivity|]. intros u Hu. apply (NB u), in_or_app. auto.
  - intros H. apply H2. intros w Hw. apply (H w), in_or_app. auto.
Qed.
Theorem C84_caron : forall h1 h2 f LMAX MMAX, let n := use_lmax Caron LMAX in f_exists f = true -> (forall l m v, In (l, m, v) (f_rows f) -> 0 <= l /\ Z.abs m <= l) ->
  exists g, read_GIA_model h1 h2 Caron f LMAX MMAX = Ok g /\ g_lmax g = n /\ forall l m, (l <= n)%nat -> (m <= n)%nat ->
    row_value (Z.of_nat l) (Z.of_nat m) (f_rows f) (g_c g l m) /\ ((1 <= m)%nat -> row_value (Z.of_nat l) (- Z.of_nat m) (f_rows f) (g_s g l m)) /\ g_s g l 0%nat = 0%Q.
Proof.
  intros h1 h2 f LMAX MMAX n E F.
  assert (X : forall rows, (forall l m v, In (l, m, v) rows -> 0 <= l /\ Z.abs m <= l) -> exists y, foldM (caron_row n) rows fzero = Ok y /\ forall l m, (l <= n)%nat -> (m <= n)%nat ->
    row_value (Z.of_nat l) (Z.of_nat m) rows (fst y l m) /\ ((1 <= m)%nat -> row_value (Z.of_nat l) (- Z.of_nat m) rows (snd y l m)) /\ snd y l 0%nat = 0%Q).
  { induction rows as [|[[l0 m0] v0] rows IH] using rev_ind; intros G.
    - exists fzero. split; [reflexivity|]. intros l m Hl Hm. assert (Z0 : forall a b, row_value a b [] 0%Q) by (intros a b; split; [intros v (A & B & X & _); destruct A; discriminate|reflexivity]). split; [apply Z0|]. split; [intros _; apply Z0|reflexivity].
    - destruct IH as (y & Y & H); [intros l m v Hv; apply (G l m v), in_or_app; auto|]. rewrite foldM_snoc, Y. cbn [bind]. destruct (G l0 m0 v0) as [G1 G2]; [apply in_or_app; right; left; auto|]. unfold caron_row.
      destruct (Z.leb_spec l0 (Z.of_nat n)) as [Ln|Ln]; [|rewrite !andb_false_r; cbn [andb]; exists y; split; [reflexivity|]; intros l m Hl Hm; destruct (H l m Hl Hm) as (A1 & A2 & A3); split; [apply row_value_snoc_other; [lia|auto]|]; split; [intros; apply row_value_snoc_other; [lia|auto]|auto]].
      replace (m0 <=? Z.of_nat n) with true by lia. rewrite !andb_true_r. pose proof (nidx_ok n (Z.to_nat l0) ltac:(lia)) as N1. rewrite Z2Nat.id in N1 by lia. rewrite N1. destruct (Z.leb_spec 0 m0) as [M0|M0].
      + pose proof (nidx_ok n (Z.to_nat m0) ltac:(lia)) as N2. rewrite Z2Nat.id in N2 by lia. rewrite N2. cbn [bind]. eexists. split; [reflexivity|]. cbn [fst snd]. intros l m Hl Hm. destruct (H l m Hl Hm) as (A1 & A2 & A3). unfold cset. split.
        * destruct (Nat.eqb_spec l (Z.to_nat l0)) as [El|El]; [destruct (Nat.eqb_spec m (Z.to_nat m0)) as [Em|Em]|]; cbn [andb]; [|apply row_value_snoc_other; [lia|auto]|apply row_value_snoc_other; [lia|auto]]. replace (Z.of_nat l) with l0 by lia. replace (Z.of_nat m) with m0 by lia. apply row_value_snoc_same.
        * split; [intros; apply row_value_snoc_other; [lia|auto]|auto].
      + replace (m0 <? 0) with true by lia. pose proof (nidx_ok n (Z.to_nat (Z.abs m0)) ltac:(lia)) as N2. rewrite Z2Nat.id in N2 by lia. rewrite N2. cbn [bind]. eexists. split; [reflexivity|]. cbn [fst snd]. intros l m Hl Hm. destruct (H l m Hl Hm) as (A1 & A2 & A3). unfold cset. split; [apply row_value_snoc_other; [lia|auto]|]. split.
        * intros Hm1. destruct (Nat.eqb_spec l (Z.to_nat l0)) as [El|El]; [destruct (Nat.eqb_spec m (Z.to_nat (Z.abs m0))) as [Em|Em]|]; cbn [andb]; [|apply row_value_snoc_other; [lia|auto]|apply row_value_snoc_other; [lia|auto]]. replace (Z.of_nat l) with l0 by lia. replace (- Z.of_nat m) with m0 by lia. apply row_value_snoc_same.
        * destruct (Nat.eqb_spec 0 (Z.to_nat (Z.abs m0))); [lia|]. rewrite andb_false_r. exact A3. }
  destruct (X (f_rows f) F) as (y & Y & H). exists (mkgia n (mmax_cols (n + 1) MMAX) (fst y) (snd y)). split; [|split; [reflexivity|exact H]].
  unfold read_GIA_model. fold n. rewrite E. cbn [bind gia_fields]. rewrite Y. cbn [bind]. unfold name_check. destruct (f_name f); reflexivity.
Qed.

(** ** Errors and options *)
(** a missing file, a file name that does not fit the model, and ICE6G-D files without exactly one title of each kind are refused *)
Theorem C84_errors : forall h1 h2 k f LMAX MMAX,
  (k <> GIA_other -> f_exists f = false -> read_GIA_model h1 h2 k f LMAX MMAX = Err FileNotFound) /\
  (k <> GIA_other -> k <> Wu10 -> k <> Caron -> f_name f = false -> exists e, read_GIA_model h1 h2 k f LMAX MMAX = Err e) /\
  (k = ICE6GD -> f_exists f = true -> (length (filter h1 (f_lines f)) <> 1 \/ length (filter h2 (f_lines f)) <> 1)%nat -> read_GIA_model h1 h2 k f LMAX MMAX = Err ValueError).
Proof.
  intros h1 h2 k f LMAX MMAX. split; [|split].
  - intros K E. unfold read_GIA_model. rewrite E. destruct k; try reflexivity; congruence.
  - intros K1 K2 K3 N. unfold read_GIA_model, name_check. rewrite N. destruct k; try congruence; (destruct (f_exists f); cbn [bind]; [destruct (gia_fields _ _ _ _ _); cbn [bind]; eauto|eauto]).
  - intros -> E H. assert (A : forall h j ls, length (after h j ls) = length (filter h ls)) by (intros h j ls; revert j; induction ls as [|x ls IH]; intros j; cbn [after filter]; [reflexivity|]; destruct (h x); cbn [app length]; rewrite IH; reflexivity).
    assert (B : forall h, length (filter h (f_lines f)) <> 1%nat -> the_one (after h 0 (f_lines f)) = Err ValueError) by (intros h Hh; rewrite <- (A h 0%nat) in Hh; destruct (after h 0 (f_lines f)) as [|? [|? ?]]; try reflexivity; cbn in Hh; lia).
    assert (C : forall h, exists r, the_one (after h 0 (f_lines f)) = r /\ ((exists x, r = Ok x) \/ r = Err ValueError)) by (intros h; destruct (after h 0 (f_lines f)) as [|? [|? ?]]; cbn [the_one]; eexists; split; try reflexivity; eauto).
    unfold read_GIA_model. rewrite E. cbn [bind gia_fields]. unfold ice6gd. destruct H as [H|H]; [rewrite (B h1 H); reflexivity|]. destruct (C h1) as (r & -> & [(x & ->)| ->]); cbn [bind]; [|reflexivity]. rewrite (B h2 H). reflexivity.
Qed.
(** the degree of the result is the requested one, and otherwise the degree of the file of the model *)
Definition published_degree (k : gia_kind) : nat :=
  match k with IJ05 | W12a | SM09 => 120 | ICE6G | Wu10 => 60 | Caron => 89 | ICE6GD | AW13_IJ05 => 256 | AW13_ICE6G => 100 | GIA_other => 60 end.
Theorem C84_degree : forall h1 h2 k f LMAX MMAX g, read_GIA_model h1 h2 k f LMAX MMAX = Ok g ->
  (forall n, LMAX = Some n -> (1 <= n)%nat -> g_lmax g = n) /\ (LMAX = None \/ LMAX = Some 0%nat -> g_lmax g = published_degree k).
Proof.
  intros h1 h2 k f LMAX MMAX g. unfold read_GIA_model. destruct (match k with GIA_other => Ok tt | _ => _ end) as [[]|]; cbn [bind]; [|discriminate]. destruct (gia_fields h1 h2 k f (use_lmax k LMAX)) as [y|]; cbn [bind]; [|discriminate]. destruct (name_check k f) as [[]|]; cbn [bind]; [|discriminate].
  assert (Q : forall a b : gia, Ok a = Ok b -> b = a) by congruence. intros ->%Q. cbn [g_lmax]. split.
  - intros n -> Hn. destruct n; [lia|reflexivity].
  - intros [-> | ->]; destruct k; reflexivity.
Qed.
(** MMAX only limits the number of orders kept; the coefficients are the same *)
Theorem C84_mmax : forall h1 h2 k f LMAX g, read_GIA_model h1 h2 k f LMAX None = Ok g -> g_cols g = (g_lmax g + 1)%nat /\
  forall M, read_GIA_model h1 h2 k f LMAX (Some (Z.of_nat M)) = Ok (mkgia (g_lmax g) (Nat.min (g_lmax g + 1) (M + 1)) (g_c g) (g_s g)).
Proof.
  intros h1 h2 k f LMAX g. unfold read_GIA_model. destruct (match k with GIA_other => Ok tt | _ => _ end) as [[]|] eqn:X; cbn [bind]; [|discriminate]. destruct (gia_fields h1 h2 k f (use_lmax k LMAX)) as [y|]; cbn [bind]; [|discriminate]. destruct (name_check k f) as [[]|]; cbn [bind]; [|discriminate].
  assert (Q : forall a b : gia, Ok a = Ok b -> b = a) by congruence. intros ->%Q. cbn [g_cols g_lmax g_c g_s mmax_cols]. split; [reflexivity|]. intros M. replace (Z.of_nat M + 1 <? 0) with false by lia. replace (Z.to_nat (Z.of_nat M + 1)) with (M + 1)%nat by lia. reflexivity.
Qed.
(** an object of degree lmax read by from_GIA has the degree and orders of the table *)
Theorem C84_from_gia : forall h1 h2 lmax k f mmax g, read_GIA_model h1 h2 k f lmax (option_map Z.of_nat mmax) = Ok g -> f_exists f = true ->
  from_GIA h1 h2 lmax k f (option_map Z.of_nat mmax) false = Ok (g, g_lmax g, match mmax with None => g_lmax g | Some m => Nat.min (g_lmax g) m end).
Proof.
  intros h1 h2 lmax k f mmax g R E. unfold from_GIA. rewrite E. cbn [negb].
  assert (C : g_cols g = (match mmax with None => g_lmax g | Some m => Nat.min (g_lmax g) m end + 1)%nat).
  { destruct (read_GIA_model h1 h2 k f lmax None) as [g0|e] eqn:R0.
    - destruct (C84_mmax h1 h2 k f lmax g0 R0) as [C0 CM]. destruct mmax as [m|]; cbn [option_map] in R; [rewrite CM in R; assert (Q : forall a b : gia, Ok a = Ok b -> b = a) by congruence; apply Q in R; subst g; cbn [g_cols g_lmax]; lia|]. rewrite R0 in R. assert (Q : forall a b : gia, Ok a = Ok b -> b = a) by congruence. apply Q in R. subst. exact C0.
    - exfalso. revert R R0. unfold read_GIA_model. destruct (match k with GIA_other => Ok tt | _ => _ end) as [[]|]; cbn [bind]; [|discriminate]. destruct (gia_fields _ _ _ _ _); cbn [bind]; [|discriminate]. destruct (name_check k f); cbn [bind]; discriminate. }
  destruct mmax as [m|]; cbn [option_map] in *; rewrite R; cbn [bind]; rewrite C; match goal with |- context [(?x + 1 =? 0)%nat] => replace (x + 1 =? 0)%nat with false by (symmetry; apply Nat.eqb_neq; lia) end; rewrite Nat.add_sub; reflexivity.
Qed.
(** Refuted: "LMAX = 0 gives degree 0", "an unknown model name is an error", "from_GIA accepts MMAX" *)
Theorem C84_lmax0_refuted : forall h1 h2 k f MMAX, read_GIA_model h1 h2 k f (Some 0%nat) MMAX = read_GIA_model h1 h2 k f None MMAX.
Proof. reflexivity. Qed.
Theorem C84_unknown_refuted : forall h1 h2 f LMAX MMAX, exists g, read_GIA_model h1 h2 GIA_other f LMAX MMAX = Ok g /\ forall l m, g_c g l m = 0%Q /\ g_s g l m = 0%Q.
Proof. intros h1 h2 f LMAX MMAX. unfold read_GIA_model. cbn [bind gia_fields]. unfold name_check. destruct (f_name f); cbn [bind]; eexists; (split; [reflexivity|]); intros; split; reflexivity. Qed.
Theorem C84_mmax_keyword_refuted : forall h1 h2 lmax k f g, f_exists f = true -> read_GIA_model h1 h2 k f lmax None = Ok g -> from_GIA h1 h2 lmax k f None true = Err TypeError.
Proof. intros h1 h2 lmax k f g E R. unfold from_GIA. rewrite E, R. reflexivity. Qed.
(** concrete files *)
Example C84_nonvacuous : let r := mkline false [2; 1; 3; 4]%Q false false in let e := mkline false [] false false in
  let i := mkline false [0; 1; 2; 3; 4]%Q false false in
  Forall (table_line 2) (numbered [e; r; e; r]) /\ last_for 2 1 (numbered [e; r; e; r]) r /\ (forall l m, (l <= 1)%nat -> (m <= l)%nat -> ice_ok [i; i] l m) /\
  (forall l m v, In (l, m, v) [(2, 1, 5%Q); (2, -1, 6%Q)] -> 0 <= l /\ Z.abs m <= l) /\ ((1 + 1) * (1 + 1) - 1 <= length [1; 2; 3]%Q)%nat.
Proof.
  cbv zeta. assert (T : table_line 2 (mkline false [2; 1; 3; 4]%Q false false)) by (exists 2%nat, 1%nat; split; [split; reflexivity|]; cbn; lia).
  split; [repeat constructor; exact T|]. split; [exists [mkline false [2; 1; 3; 4]%Q false false], []; split; [reflexivity|]; split; [split; reflexivity|intros x []]|].
  split; [intros l m Hl Hm; assert (K : ((l = 0 /\ m = 0) \/ (l = 1 /\ m = 0) \/ (l = 1 /\ m = 1))%nat) by lia; destruct K as [[-> ->]|[[-> ->]|[-> ->]]]; eexists; (split; [reflexivity|]); right; cbn; lia|].
  split; [intros l m v [H|[H|[]]]; injection H; lia|cbn; lia].
Qed.
