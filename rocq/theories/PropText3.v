(** C115, third part: numbers printed by str.format, and harmonics files down to the characters. *)
From Coq Require Import Reals Ascii String Lra Lia.
From Verif Require Import Base Arr DestripeModel UtilModel HarmModel HarmProofs3 TextModel TextProofs PropText PropText2.
Close Scope Z_scope.
Close Scope R_scope.
Open Scope nat_scope.
Open Scope list_scope.

(** ** digits of integers *)
Lemma digit_char_ok n : (0 <= n <= 9)%Z -> is_digit (digit_char n) = true /\ INR (nat_of_ascii (digit_char n) - 48) = IZR n.
Proof.
  intros H. unfold digit_char. assert (E : nat_of_ascii (ascii_of_nat (Z.to_nat (48 + n))) = Z.to_nat (48 + n)) by (apply nat_ascii_embedding; lia).
  unfold is_digit. rewrite E. split; [apply andb_true_intro; split; apply Nat.leb_le; lia|]. rewrite INR_IZR_INZ. f_equal. lia.
Qed.
Lemma fixed_ok p : forall n, (0 <= n)%Z -> digits (fixed_digits p n) /\ List.length (fixed_digits p n) = p /\ numeral (fixed_digits p n) = IZR (n mod 10 ^ Z.of_nat p).
Proof.
  induction p as [|p IH]; intros n H.
  - cbn. rewrite Z.mod_1_r. repeat split. constructor.
  - cbn [fixed_digits]. destruct (IH (n / 10)%Z) as (A & B & C); [apply Z.div_pos; lia|]. pose proof (Z.mod_pos_bound n 10 ltac:(lia)) as M. destruct (digit_char_ok (n mod 10)) as (D & E); [lia|].
    split; [apply digits_app; [exact A|now repeat constructor]|]. split; [rewrite app_length, B; cbn; lia|].
    rewrite numeral_app, C. cbn [numeral List.length pow]. rewrite E. replace (Z.of_nat (S p)) with (1 + Z.of_nat p)%Z by lia. rewrite Z.pow_add_r by lia. change (10 ^ 1)%Z with 10%Z.
    rewrite (Z.rem_mul_r n 10 (10 ^ Z.of_nat p)) by (try lia; apply Z.pow_pos_nonneg; lia). rewrite plus_IZR, mult_IZR. lra.
Qed.
Lemma width_ok fuel : forall n, (0 <= n)%Z -> (n <= Z.of_nat fuel)%Z -> (n < 10 ^ Z.of_nat (width_of fuel n))%Z /\ 1 <= width_of fuel n.
Proof.
  induction fuel as [|f IH]; intros n H L; cbn [width_of].
  - split; [|lia]. change (10 ^ Z.of_nat 1)%Z with 10%Z. lia.
  - destruct (Z.ltb_spec n 10) as [A|A]; [split; [change (10 ^ Z.of_nat 1)%Z with 10%Z; lia|lia]|].
    assert (Q : (0 <= n / 10 <= Z.of_nat f)%Z) by (split; [apply Z.div_pos; lia|pose proof (Z.div_lt n 10); lia]).
    destruct (IH (n / 10)%Z) as (B & _); [lia|lia|]. split; [|lia]. replace (Z.of_nat (S (width_of f (n / 10)))) with (1 + Z.of_nat (width_of f (n / 10)))%Z by lia. rewrite Z.pow_add_r by lia. change (10 ^ 1)%Z with 10%Z.
    pose proof (Z.div_mod n 10 ltac:(lia)). pose proof (Z.mod_pos_bound n 10 ltac:(lia)). lia.
Qed.
Lemma int_ok n : (0 <= n)%Z -> digits (int_digits n) /\ int_digits n <> [] /\ numeral (int_digits n) = IZR n.
Proof.
  intros H. unfold int_digits. destruct (width_ok (Z.to_nat n) n) as (A & B); [lia|lia|]. destruct (fixed_ok (width_of (Z.to_nat n) n) n H) as (C & D & E).
  split; [exact C|]. split; [intros F; rewrite F in D; cbn in D; lia|]. rewrite E, Z.mod_small by lia. reflexivity.
Qed.
Lemma int_one n : (0 <= n < 10)%Z -> List.length (int_digits n) = 1.
Proof. intros H. unfold int_digits. rewrite (proj1 (proj2 (fixed_ok _ n ltac:(lia)))). destruct (Z.to_nat n); cbn [width_of]; [reflexivity|]. destruct (Z.ltb_spec n 10); [reflexivity|lia]. Qed.
Lemma int_value n : (0 <= n)%Z -> digits_value (int_digits n) = n.
Proof. intros H. destruct (int_ok n H) as (A & _ & B). apply eq_IZR. now rewrite digits_numeral. Qed.
Lemma around_ok x : (Rabs (x - IZR (around x)) <= 1 / 2)%R.
Proof.
  destruct (base_Int_part x) as (B1 & B2). unfold around. cbv zeta. destruct (Rlt_dec _ _); [apply Rabs_le; lra|]. destruct (Rlt_dec _ _).
  - rewrite plus_IZR. apply Rabs_le. lra.
  - destruct (Z.even _); rewrite ?plus_IZR; apply Rabs_le; lra.
Qed.
Lemma around_int n : around (IZR n) = n.
Proof.
  assert (E : Int_part (IZR n) = n).
  { unfold Int_part. rewrite <- (tech_up (IZR n) (n + 1)); [lia| |]; rewrite plus_IZR; lra. }
  unfold around. rewrite E. cbv zeta. destruct (Rlt_dec (IZR n - IZR n) (1 / 2)); [reflexivity|lra].
Qed.
Lemma around_nonneg x : (0 <= x)%R -> (0 <= around x)%Z.
Proof.
  intros H. pose proof (around_ok x) as A. assert (B : (-1 < IZR (around x))%R). { pose proof (Rle_abs (x - IZR (around x))) as B. pose proof (Rle_abs (- (x - IZR (around x)))) as C. rewrite Rabs_Ropp in C. lra. }
  apply (lt_IZR (-1)) in B. lia.
Qed.

(** ** the printed forms as numbers *)
Definition dec_d (n : nat) : decimal := mkdec None (int_digits (Z.of_nat n)) None None.
Definition neg (x : R) : bool := if Rlt_dec x 0 then true else false.
Definition n_f (p : nat) (x : R) : Z := around (Rabs x * 10 ^ p).
Definition dec_f (p : nat) (x : R) : decimal := mkdec (if neg x then Some true else None) (int_digits (n_f p x / 10 ^ Z.of_nat p)) (Some (fixed_digits p (n_f p x))) None.
Definition ne (p : nat) (x : R) : Z * Z :=
  if Req_EM_T x 0 then (0%Z, 0%Z) else
  let n := around (Rabs x * powerRZ 10 (Z.of_nat p - decade x)) in
  if (n =? 10 ^ (Z.of_nat p + 1))%Z then ((10 ^ Z.of_nat p)%Z, (decade x + 1)%Z) else (n, decade x).
Definition exp_digits (e : Z) : text := if (Z.abs e <? 10)%Z then "0"%char :: int_digits (Z.abs e) else int_digits (Z.abs e).
Definition dec_ne (s : bool) (p : nat) (n e : Z) : decimal := mkdec (Some s) (int_digits (n / 10 ^ Z.of_nat p)) (Some (fixed_digits p n)) (Some ("e"%char, Some (e <? 0)%Z, exp_digits e)).
Definition dec_e (p : nat) (x : R) : decimal := dec_ne (neg x) p (fst (ne p x)) (snd (ne p x)).
Definition blanks (n : nat) : text := repeat " "%char n.
Lemma fmt_d_eq w n : fmt_d w n = blanks (w - List.length (render (dec_d n))) ++ render (dec_d n).
Proof. unfold fmt_d, pad, dec_d, render. cbn [d_sign d_int d_frac d_exp sign_text app]. now rewrite !app_nil_r. Qed.
Lemma fmt_f_eq w p x : fmt_f w p x = blanks (w - List.length (render (dec_f p x))) ++ render (dec_f p x).
Proof.
  assert (E : sign_f x ++ int_digits (n_f p x / 10 ^ Z.of_nat p) ++ "."%char :: fixed_digits p (n_f p x) = render (dec_f p x)).
  { unfold dec_f, render, sign_f, neg. cbn [d_sign d_int d_frac d_exp]. rewrite app_nil_r. now destruct (Rlt_dec x 0). }
  unfold fmt_f. cbv zeta. fold (n_f p x). rewrite E. reflexivity.
Qed.
Lemma fmt_e_eq w p x : fmt_e w p x = blanks (w - List.length (render (dec_e p x))) ++ render (dec_e p x).
Proof.
  unfold fmt_e. cbv zeta. fold (ne p x). unfold dec_e. destruct (ne p x) as [n e]. cbn [fst snd].
  assert (E : sign_e x ++ int_digits (n / 10 ^ Z.of_nat p) ++ "."%char :: fixed_digits p n ++ "e"%char :: (if (e <? 0)%Z then "-"%char else "+"%char) :: exp_digits e = render (dec_ne (neg x) p n e)).
  { unfold dec_ne, render, sign_e, neg. cbn [d_sign d_int d_frac d_exp]. cbn [app]. destruct (Rlt_dec x 0), (e <? 0)%Z; reflexivity. }
  unfold exp_digits in E. rewrite E. reflexivity.
Qed.
Lemma pow_Z p : (0 < 10 ^ Z.of_nat p)%Z /\ IZR (10 ^ Z.of_nat p) = (10 ^ p)%R /\ (0 < 10 ^ p)%R.
Proof. split; [apply Z.pow_pos_nonneg; lia|]. split; [now rewrite pow_IZR|apply pow_lt; lra]. Qed.
Lemma split_value p n : (0 <= n)%Z -> (numeral (int_digits (n / 10 ^ Z.of_nat p)) + numeral (fixed_digits p n) / 10 ^ List.length (fixed_digits p n) = IZR n / 10 ^ p)%R.
Proof.
  intros H. destruct (pow_Z p) as (P1 & P2 & P3). destruct (int_ok (n / 10 ^ Z.of_nat p)) as (_ & _ & ->); [apply Z.div_pos; lia|]. destruct (fixed_ok p n H) as (_ & -> & ->).
  pose proof (Z.div_mod n (10 ^ Z.of_nat p) ltac:(lia)) as E. apply (f_equal IZR) in E. rewrite plus_IZR, mult_IZR, P2 in E. rewrite E. field. lra.
Qed.
Lemma valid_d f n : valid f (dec_d n).
Proof. destruct (int_ok (Z.of_nat n)) as (A & B & _); [lia|]. repeat split; assumption. Qed.
Lemma n_f_nonneg p x : (0 <= n_f p x)%Z.
Proof. apply around_nonneg. apply Rmult_le_pos; [apply Rabs_pos|]. left. apply pow_Z. Qed.
Lemma valid_f f p x : valid f (dec_f p x).
Proof.
  pose proof (n_f_nonneg p x) as N. destruct (int_ok (n_f p x / 10 ^ Z.of_nat p)) as (A & B & _); [apply Z.div_pos; [exact N|apply pow_Z]|]. destruct (fixed_ok p (n_f p x) N) as (C & _).
  repeat split; cbn [d_int d_frac dec_f]; [exact A|exact C|now left].
Qed.
Lemma value_f p x : value (dec_f p x) = negate (Some (neg x)) (IZR (n_f p x) / 10 ^ p).
Proof.
  unfold value, exponent_of. cbn [dec_f d_sign d_int d_frac d_exp powerRZ]. rewrite (split_value p _ (n_f_nonneg p x)), Rmult_1_r. now destruct (neg x).
Qed.
Lemma negate_abs x : negate (Some (neg x)) (Rabs x) = x.
Proof. unfold neg. destruct (Rlt_dec x 0); cbn [negate]; [rewrite Rabs_left; lra|rewrite Rabs_right; lra]. Qed.
Lemma negate_dist b x y : (Rabs (negate (Some b) x - negate (Some b) y) = Rabs (x - y))%R.
Proof. destruct b; cbn [negate]; [|reflexivity]. replace (- x - - y)%R with (- (x - y))%R by ring. apply Rabs_Ropp. Qed.
Lemma close_f p x : (Rabs (value (dec_f p x) - x) <= 1 / (2 * 10 ^ p))%R.
Proof.
  rewrite value_f. rewrite <- (negate_abs x) at 3. rewrite negate_dist. destruct (pow_Z p) as (_ & _ & P). pose proof (around_ok (Rabs x * 10 ^ p)) as A. fold (n_f p x) in A.
  replace (IZR (n_f p x) / 10 ^ p - Rabs x)%R with (- ((Rabs x * 10 ^ p - IZR (n_f p x)) * / 10 ^ p))%R by (field; lra).
  rewrite Rabs_Ropp, Rabs_mult, (Rabs_pos_eq (/ 10 ^ p)) by (left; now apply Rinv_0_lt_compat).
  replace (1 / (2 * 10 ^ p))%R with (1 / 2 * / 10 ^ p)%R by (field; lra). apply Rmult_le_compat_r; [left; now apply Rinv_0_lt_compat|exact A].
Qed.

(** leading digit *)
Lemma powerRZ_pos z : (0 < powerRZ 10 z)%R. Proof. apply powerRZ_lt. lra. Qed.
Lemma decade_bounds x : (x <> 0)%R -> (powerRZ 10 (decade x) <= Rabs x < powerRZ 10 (decade x + 1))%R.
Proof.
  intros H. assert (A : (0 < Rabs x)%R) by now apply Rabs_pos_lt. assert (L : (0 < ln 10)%R) by (rewrite <- ln_1; apply ln_increasing; lra).
  unfold decade. destruct (base_Int_part (ln (Rabs x) / ln 10)) as (B1 & B2). set (z := Int_part (ln (Rabs x) / ln 10)) in *.
  assert (E : (ln (Rabs x) = ln (Rabs x) / ln 10 * ln 10)%R) by (field; lra).
  assert (X : exp (ln (Rabs x)) = Rabs x) by now apply exp_ln. set (y := ln (Rabs x)) in *. rewrite <- X, !powerRZ_Rpower by lra. unfold Rpower. clearbody y z. rewrite plus_IZR. split.
  - destruct B1 as [B1|B1]; [left; apply exp_increasing; rewrite E; apply Rmult_lt_compat_r; lra|right; f_equal; rewrite B1; now rewrite <- E].
  - apply exp_increasing. rewrite E. apply Rmult_lt_compat_r; lra.
Qed.
Lemma powerRZ_mono a b : (a <= b)%Z -> (powerRZ 10 a <= powerRZ 10 b)%R.
Proof.
  intros H. replace b with (a + Z.of_nat (Z.to_nat (b - a)))%Z by lia. rewrite powerRZ_add by exact ten_pos. rewrite <- pow_powerRZ. pose proof (powerRZ_pos a).
  assert (1 <= 10 ^ Z.to_nat (b - a))%R by (apply pow_R1_Rle; lra). nra.
Qed.
Lemma decade_unique x z : (powerRZ 10 z <= Rabs x < powerRZ 10 (z + 1))%R -> decade x = z.
Proof.
  intros (A & B). assert (N : (x <> 0)%R). { intros ->. rewrite Rabs_R0 in A. pose proof (powerRZ_pos z). lra. }
  destruct (decade_bounds x N) as (C & D). destruct (Z_lt_le_dec (decade x) z) as [L|L]; [pose proof (powerRZ_mono (decade x + 1) z ltac:(lia)); lra|].
  destruct (Z_lt_le_dec z (decade x)) as [M|M]; [pose proof (powerRZ_mono (z + 1) (decade x) ltac:(lia)); lra|lia].
Qed.
Lemma powerRZ_shift p e : powerRZ 10 (e - Z.of_nat p) = (powerRZ 10 e / 10 ^ p)%R.
Proof. unfold Z.sub. rewrite powerRZ_add by exact ten_pos. rewrite powerRZ_neg_nat. reflexivity. Qed.
Lemma pow_p1 p : (10 ^ (Z.of_nat p + 1) = 10 * 10 ^ Z.of_nat p)%Z.
Proof. rewrite Z.pow_add_r by lia. change (10 ^ 1)%Z with 10%Z. lia. Qed.
Lemma ne_spec p x : (x <> 0)%R -> let '(n, e) := ne p x in (10 ^ Z.of_nat p <= n < 10 ^ (Z.of_nat p + 1))%Z /\
  (Rabs (IZR n * powerRZ 10 (e - Z.of_nat p) - Rabs x) <= Rabs x / (2 * 10 ^ p))%R.
Proof.
  intros N. unfold ne. destruct (Req_EM_T x 0) as [E|_]; [congruence|]. cbv zeta. destruct (decade_bounds x N) as (A & B). set (z := decade x) in *. clearbody z.
  destruct (pow_Z p) as (P1 & P2 & P3). pose proof (powerRZ_pos z) as Z0. set (y := (Rabs x * powerRZ 10 (Z.of_nat p - z))%R).
  assert (Y : (y = Rabs x * 10 ^ p / powerRZ 10 z)%R). { unfold y, Z.sub. rewrite powerRZ_add, powerRZ_neg', <- pow_powerRZ by exact ten_pos. field. lra. }
  assert (Y1 : (10 ^ p <= y)%R). { rewrite Y. apply Rmult_le_reg_r with (powerRZ 10 z); [exact Z0|]. unfold Rdiv. rewrite Rmult_assoc, Rinv_l by lra. nra. }
  assert (Y2 : (y < 10 * 10 ^ p)%R). { rewrite powerRZ_add, powerRZ_1 in B by exact ten_pos. rewrite Y. apply Rmult_lt_reg_r with (powerRZ 10 z); [exact Z0|]. unfold Rdiv. rewrite Rmult_assoc, Rinv_l by lra. nra. }
  pose proof (around_ok y) as R0. set (n := around y) in *. clearbody n.
  assert (R1 : (y - 1 / 2 <= IZR n <= y + 1 / 2)%R). { pose proof (Rle_abs (y - IZR n)) as Q1. pose proof (Rle_abs (- (y - IZR n))) as Q2. rewrite Rabs_Ropp in Q2. lra. }
  assert (N1 : (10 ^ Z.of_nat p <= n)%Z). { assert (10 ^ Z.of_nat p - 1 < n)%Z; [|lia]. apply lt_IZR. rewrite minus_IZR, P2. lra. }
  assert (N2 : (n <= 10 ^ (Z.of_nat p + 1))%Z). { rewrite pow_p1. assert (n < 10 * 10 ^ Z.of_nat p + 1)%Z; [|lia]. apply lt_IZR. rewrite plus_IZR, mult_IZR, P2. lra. }
  assert (D : (Rabs (IZR n * powerRZ 10 (z - Z.of_nat p) - Rabs x) <= Rabs x / (2 * 10 ^ p))%R).
  { rewrite powerRZ_shift. assert (X : (Rabs x = y * (powerRZ 10 z / 10 ^ p))%R) by (rewrite Y; field; lra). set (u := (powerRZ 10 z / 10 ^ p)%R) in *.
    assert (U : (0 < u)%R) by (unfold u; apply Rdiv_lt_0_compat; assumption). replace (IZR n * u - Rabs x)%R with (- ((y - IZR n) * u))%R by (rewrite X; ring).
    rewrite Rabs_Ropp, Rabs_mult, (Rabs_pos_eq u) by lra. apply Rle_trans with (1 / 2 * u)%R; [apply Rmult_le_compat_r; lra|].
    replace (Rabs x / (2 * 10 ^ p))%R with (1 / 2 * (Rabs x / 10 ^ p))%R by (field; lra). apply Rmult_le_compat_l; [lra|]. unfold u, Rdiv. apply Rmult_le_compat_r; [left; now apply Rinv_0_lt_compat|exact A]. }
  destruct (Z.eqb_spec n (10 ^ (Z.of_nat p + 1))) as [E|E].
  - split; [rewrite pow_p1; lia|]. replace (IZR (10 ^ Z.of_nat p) * powerRZ 10 (z + 1 - Z.of_nat p))%R with (IZR n * powerRZ 10 (z - Z.of_nat p))%R; [exact D|].
    rewrite E, pow_p1, mult_IZR. replace (z + 1 - Z.of_nat p)%Z with (1 + (z - Z.of_nat p))%Z by lia. rewrite powerRZ_add, powerRZ_1 by exact ten_pos. ring.
  - split; [lia|exact D].
Qed.
Lemma ne_nonneg p x : (0 <= fst (ne p x))%Z.
Proof. destruct (Req_EM_T x 0) as [E|E]; [unfold ne; destruct (Req_EM_T x 0); [cbn; lia|congruence]|]. pose proof (ne_spec p x E) as H. destruct (ne p x) as [n e]. cbn. pose proof (pow_Z p). lia. Qed.
Lemma exp_digits_ok e : digits (exp_digits e) /\ exp_digits e <> [] /\ digits_value (exp_digits e) = Z.abs e.
Proof.
  unfold exp_digits. destruct (int_ok (Z.abs e)) as (A & B & _); [lia|]. pose proof (int_value (Z.abs e) ltac:(lia)) as C. destruct (Z.abs e <? 10)%Z; [|repeat split; assumption].
  split; [now constructor|]. split; [discriminate|]. unfold digits_value in *. cbn [fold_left]. change (10 * 0 + digit_value "0"%char)%Z with 0%Z. exact C.
Qed.
Lemma valid_ne f s p n e : (0 <= n)%Z -> valid f (dec_ne s p n e).
Proof.
  intros N. destruct (int_ok (n / 10 ^ Z.of_nat p)) as (A & B & _); [apply Z.div_pos; [exact N|apply pow_Z]|]. destruct (fixed_ok p n N) as (C & _). destruct (exp_digits_ok e) as (D & E & _).
  repeat split; cbn [d_int d_frac d_exp dec_ne]; [exact A|exact C|now left|unfold exp_letter; auto|exact D|exact E].
Qed.
Lemma value_ne s p n e : (0 <= n)%Z -> value (dec_ne s p n e) = negate (Some s) (IZR n * powerRZ 10 (e - Z.of_nat p)).
Proof.
  intros N. unfold value. cbn [dec_ne d_sign d_int d_frac]. rewrite (split_value p n N).
  assert (E : exponent_of (dec_ne s p n e) = e). { unfold exponent_of. cbn [dec_ne d_exp]. rewrite (proj2 (proj2 (exp_digits_ok e))). destruct (Z.ltb_spec e 0); lia. }
  rewrite E, powerRZ_shift. destruct (pow_Z p) as (_ & _ & P). destruct s; cbn [negate]; field; lra.
Qed.
Lemma valid_e f p x : valid f (dec_e p x). Proof. apply valid_ne, ne_nonneg. Qed.
Lemma close_e p x : (Rabs (value (dec_e p x) - x) <= Rabs x / (2 * 10 ^ p))%R.
Proof.
  unfold dec_e. rewrite (value_ne _ _ _ _ (ne_nonneg p x)). destruct (Req_EM_T x 0) as [->|N].
  - unfold ne. destruct (Req_EM_T 0 0) as [_|C]; [|congruence]. cbn [fst snd]. rewrite Rmult_0_l, Rabs_R0. unfold neg. destruct (Rlt_dec 0 0); [lra|]. cbn [negate]. rewrite Rminus_0_r, Rabs_R0. unfold Rdiv. rewrite Rmult_0_l. lra.
  - pose proof (ne_spec p x N) as H. destruct (ne p x) as [n e]. cbn [fst snd]. rewrite <- (negate_abs x) at 2. rewrite negate_dist. apply H.
Qed.
(** printing what was read prints the same characters *)
Lemma neg_negate b y : (0 < y)%R -> neg (negate (Some b) y) = b.
Proof. intros H. unfold neg. destruct b; cbn [negate]; destruct (Rlt_dec _ _); try reflexivity; lra. Qed.
Lemma abs_negate b y : (0 < y)%R -> Rabs (negate (Some b) y) = y.
Proof. intros H. destruct b; cbn [negate]; [rewrite Rabs_Ropp|]; apply Rabs_pos_eq; lra. Qed.
Lemma ne_normal s p n e : (10 ^ Z.of_nat p <= n < 10 ^ (Z.of_nat p + 1))%Z -> ne p (value (dec_ne s p n e)) = (n, e) /\ neg (value (dec_ne s p n e)) = s.
Proof.
  intros H. destruct (pow_Z p) as (P1 & P2 & P3). rewrite value_ne by lia. set (y := (IZR n * powerRZ 10 (e - Z.of_nat p))%R). pose proof (powerRZ_pos e) as E0.
  assert (N1 : (10 ^ p <= IZR n)%R) by (rewrite <- P2; apply IZR_le; lia). assert (N2 : (IZR n < 10 * 10 ^ p)%R) by (rewrite <- P2, <- mult_IZR, <- pow_p1; apply IZR_lt; lia).
  assert (YE : (y = IZR n / 10 ^ p * powerRZ 10 e)%R) by (unfold y; rewrite powerRZ_shift; field; lra).
  assert (Q1 : (1 <= IZR n / 10 ^ p)%R). { apply Rmult_le_reg_r with (10 ^ p)%R; [exact P3|]. unfold Rdiv. rewrite Rmult_assoc, Rinv_l by lra. lra. }
  assert (Q2 : (IZR n / 10 ^ p < 10)%R). { apply Rmult_lt_reg_r with (10 ^ p)%R; [exact P3|]. unfold Rdiv. rewrite Rmult_assoc, Rinv_l by lra. lra. }
  assert (Y0 : (0 < y)%R) by (rewrite YE; nra). split; [|now apply neg_negate].
  assert (DE : decade (negate (Some s) y) = e). { apply decade_unique. rewrite abs_negate by exact Y0. rewrite powerRZ_add, powerRZ_1 by exact ten_pos. rewrite YE. split; nra. }
  unfold ne. destruct (Req_EM_T (negate (Some s) y) 0) as [C|_]; [apply (f_equal Rabs) in C; rewrite abs_negate, Rabs_R0 in C by exact Y0; lra|]. cbv zeta. rewrite DE, abs_negate by exact Y0.
  replace (y * powerRZ 10 (Z.of_nat p - e))%R with (IZR n).
  2: { rewrite YE. unfold Z.sub. rewrite powerRZ_add, powerRZ_neg', <- pow_powerRZ by exact ten_pos. field. split; lra. }
  rewrite around_int. destruct (Z.eqb_spec n (10 ^ (Z.of_nat p + 1))); [lia|reflexivity].
Qed.
Lemma again_e p x : dec_e p (value (dec_e p x)) = dec_e p x.
Proof.
  destruct (Req_EM_T x 0) as [->|N].
  - assert (E : value (dec_e p 0) = 0%R).
    { unfold dec_e. rewrite value_ne by apply ne_nonneg. unfold ne. destruct (Req_EM_T 0 0) as [_|C]; [|congruence]. cbn [fst snd]. rewrite Rmult_0_l. unfold neg. destruct (Rlt_dec 0 0); cbn [negate]; lra. }
    now rewrite E.
  - unfold dec_e at 2 3. pose proof (ne_spec p x N) as H. destruct (ne p x) as [n e]. cbn [fst snd]. destruct H as (H & _). destruct (ne_normal (neg x) p n e H) as (A & B).
    unfold dec_e. now rewrite A, B.
Qed.
Lemma again_f p x : (0 <= x)%R -> dec_f p (value (dec_f p x)) = dec_f p x.
Proof.
  intros H. assert (NX : neg x = false) by (unfold neg; destruct (Rlt_dec x 0); [lra|reflexivity]). destruct (pow_Z p) as (P1 & P2 & P3). pose proof (n_f_nonneg p x) as N. apply IZR_le in N.
  assert (E : value (dec_f p x) = (IZR (n_f p x) / 10 ^ p)%R) by (rewrite value_f, NX; reflexivity). set (v := value (dec_f p x)) in *.
  assert (V : (0 <= v)%R). { rewrite E. apply Rmult_le_pos; [lra|]. left. now apply Rinv_0_lt_compat. }
  assert (F : n_f p v = n_f p x). { unfold n_f at 1. rewrite (Rabs_pos_eq v V), E. replace (IZR (n_f p x) / 10 ^ p * 10 ^ p)%R with (IZR (n_f p x)) by (field; lra). apply around_int. }
  assert (NV : neg v = false) by (unfold neg; destruct (Rlt_dec v 0); [lra|reflexivity]). unfold dec_f. now rewrite F, NV, NX.
Qed.

(** ** C115: printed numbers *)
(** '{:w.pf}', '{:+w.pe}', '{:wd}': blanks and one number, within half a unit of the last digit printed; the exponential form has one digit before the
    point and a relative error of at most 1/(2*10^p) *)
Theorem C115_printed : forall w p x,
  (exists k d, fmt_f w p x = repeat " "%char k ++ render d /\ valid false d /\ (Rabs (value d - x) <= 1 / (2 * 10 ^ p))%R) /\
  (exists k d, fmt_e w p x = repeat " "%char k ++ render d /\ valid false d /\ (Rabs (value d - x) <= Rabs x / (2 * 10 ^ p))%R /\ List.length (d_int d) = 1) /\
  (forall n, exists k d, fmt_d w n = repeat " "%char k ++ render d /\ valid false d /\ value d = INR n).
Proof.
  intros w p x. split; [|split].
  - rewrite fmt_f_eq. eexists _, _. split; [reflexivity|]. split; [apply valid_f|apply close_f].
  - rewrite fmt_e_eq. eexists _, (dec_e p x). split; [reflexivity|]. split; [apply valid_e|]. split; [apply close_e|]. unfold dec_e. cbn [dec_ne d_int]. apply int_one.
    destruct (pow_Z p) as (P1 & _). pose proof (ne_nonneg p x) as N. split; [apply Z.div_pos; lia|]. apply Z.div_lt_upper_bound; [exact P1|].
    destruct (Req_EM_T x 0) as [->|NX]; [unfold ne; destruct (Req_EM_T 0 0) as [_|C]; [cbn; lia|congruence]|]. pose proof (ne_spec p x NX) as H. destruct (ne p x) as [n e]. cbn [fst]. rewrite pow_p1 in H. lia.
  - intros n. rewrite fmt_d_eq. eexists _, _. split; [reflexivity|]. split; [apply valid_d|]. unfold value, exponent_of. cbn [dec_d d_sign d_int d_frac d_exp negate powerRZ].
    rewrite (proj2 (proj2 (int_ok (Z.of_nat n) ltac:(lia)))), INR_IZR_INZ. ring.
Qed.
Print Assumptions C115_printed.
