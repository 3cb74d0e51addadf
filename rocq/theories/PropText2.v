(** C115, second part: values of the pieces, the pattern with a mandatory point. *)
From Coq Require Import Reals Ascii String Lra Lia.
From Verif Require Import Base Arr DestripeModel UtilModel HarmModel TextModel TextProofs PropText.
Close Scope Z_scope.
Open Scope list_scope.

(** ** values *)
Lemma digit_value_ok c : is_digit c = true -> IZR (digit_value c) = INR (nat_of_ascii c - 48) /\ (0 <= digit_value c <= 9)%Z.
Proof.
  unfold is_digit, digit_value. intros H. apply andb_prop in H. destruct H as [A B]. apply Nat.leb_le in A, B. split; [|lia].
  rewrite INR_IZR_INZ. f_equal. lia.
Qed.
Lemma digits_fold s : digits s -> forall a, IZR (fold_left (fun a c => (10 * a + digit_value c)%Z) s a) = (IZR a * 10 ^ List.length s + numeral s)%R.
Proof.
  induction 1 as [|c s D H IH]; intros a; cbn [fold_left List.length numeral pow].
  - ring.
  - rewrite IH, plus_IZR, mult_IZR, (proj1 (digit_value_ok _ D)). ring.
Qed.
Lemma digits_numeral s : digits s -> IZR (digits_value s) = numeral s.
Proof. intros H. unfold digits_value. rewrite digits_fold by exact H. ring. Qed.
Lemma numeral_app a b : numeral (a ++ b) = (numeral a * 10 ^ List.length b + numeral b)%R.
Proof. induction a as [|c a IH]; cbn [app numeral]; [ring|]. rewrite IH, app_length, pow_add. ring. Qed.
Lemma digits_app a b : digits a -> digits b -> digits (a ++ b).
Proof. unfold digits. intros. now apply Forall_app. Qed.
Definition minus_sign (s : option bool) : bool := match s with Some b => b | None => false end.
Lemma take_sign_ok sg m : (exists c t, m = c :: t /\ is_sign c = false) -> take_sign (sign_text sg ++ m) = (minus_sign sg, m).
Proof. intros (c & t & -> & H). destruct sg as [[|]|]; cbn [sign_text app take_sign minus_sign]; [reflexivity|reflexivity|now rewrite H]. Qed.
Lemma take_end a : digits a -> take_digits a = (a, []).
Proof. intros H. rewrite <- (app_nil_r a) at 1. now apply take_app. Qed.
Lemma signed_R b z : IZR (signed b z) = negate (Some b) (IZR z).
Proof. destruct b; cbn [signed negate]; [apply opp_IZR|reflexivity]. Qed.
Lemma negate_minus s x : negate (Some (minus_sign s)) x = negate s x.
Proof. now destruct s as [[|]|]. Qed.
Lemma ten_pos : (10 <> 0)%R. Proof. lra. Qed.
Lemma powerRZ_neg_nat n : powerRZ 10 (- Z.of_nat n) = (/ 10 ^ n)%R.
Proof. rewrite powerRZ_neg'. now rewrite <- pow_powerRZ. Qed.
Lemma float_render d : valid false d -> py_float (render d) = Ok (value d).
Proof.
  intros V. unfold py_float. rewrite render_eq, take_sign_ok.
  2: { destruct (mant_start _ _ V) as (c & t & -> & H). exists c. eexists. split; [reflexivity|exact H]. }
  assert (NI : str_eqb (mant_text d ++ exp_text d) (chars "inf") = false).
  { destruct (str_eqb _ _) eqn:E; [|reflexivity]. apply str_eqb_iff in E. destruct V as (A & B & _). unfold mant_text in E. destruct (d_int d) as [|c t].
    - destruct (d_frac d); [discriminate|congruence].
    - inversion A as [|? ? D ?]; subst. injection E as -> _. discriminate. }
  rewrite NI. pose proof (stops_exp false d [] V Logic.I) as SE. rewrite app_nil_r in SE.
  pose (fr := match d_frac d with Some f => f | None => [] end).
  assert (MT : (let '(a, s) := take_digits (mant_text d ++ exp_text d) in let '(b, s) := match s with c :: t => if is_point c then take_digits t else ([], s) | [] => ([], []) end in (a, b, s)) = (d_int d, fr, exp_text d)).
  { destruct V as (A & B & _). unfold mant_text, fr. destruct (d_frac d) as [f|].
    - rewrite <- app_assoc, (take_app _ _ A) by reflexivity. cbn [app]. change (is_point "."%char) with true. cbn iota. destruct B as (B & _). rewrite (take_app _ _ B); [reflexivity|]. destruct (exp_text d); [exact Logic.I|apply SE].
    - rewrite app_nil_r, (take_app _ _ A) by (destruct (exp_text d); [exact Logic.I|apply SE]). destruct (exp_text d) as [|c t]; [reflexivity|]. now rewrite (proj2 SE). }
  destruct (take_digits (mant_text d ++ exp_text d)) as [a s]. destruct (match s with c :: t => if is_point c then take_digits t else ([], s) | [] => ([], []) end) as [b s'].
  injection MT as -> -> ->.
  assert (DF : digits fr) by (unfold fr; destruct V as (_ & B & _); destruct (d_frac d); [apply B|constructor]).
  assert (NE : match d_int d, fr with [], [] => False | _, _ => True end).
  { unfold fr. destruct V as (_ & B & _). destruct (d_int d); [|exact Logic.I]. destruct (d_frac d) as [[|]|]; [|exact Logic.I|congruence]. destruct B as (_ & [B|B]); congruence. }
  assert (VAL : forall e, scale (signed (minus_sign (d_sign d)) (digits_value (d_int d ++ fr))) (- Z.of_nat (List.length fr) + e) =
     (negate (d_sign d) (numeral (d_int d) + match d_frac d with Some f => numeral f / 10 ^ List.length f | None => 0 end) * powerRZ 10 e)%R).
  { intros e. unfold scale. rewrite signed_R, negate_minus, digits_numeral by (apply digits_app; [apply V|exact DF]). rewrite numeral_app, powerRZ_add by exact ten_pos. rewrite powerRZ_neg_nat.
    rewrite <- Rmult_assoc. f_equal. assert (P : (10 ^ List.length fr <> 0)%R) by (apply pow_nonzero; lra). unfold fr in *. destruct (d_frac d) as [f|].
    - destruct (d_sign d) as [[|]|]; cbn [negate]; field; exact P.
    - cbn [List.length pow numeral]. destruct (d_sign d) as [[|]|]; cbn [negate]; field. }
  assert (OUT : forall (x : res R), (match d_int d, fr with [], [] => Err ValueError | _, _ => x end) = x) by (intros x; destruct (d_int d), fr; tauto || reflexivity).
  rewrite OUT. clear OUT NE. unfold value, exponent_of, exp_text in *. destruct V as (_ & _ & V). destruct (d_exp d) as [[[c sg] e]|].
  - destruct V as (L & DE & N). apply exp_iff in L. rewrite L. rewrite take_sign_ok.
    2: { destruct (digits_stop _ N DE) as (c0 & t0 & -> & D0). exists c0, t0. split; [reflexivity|apply digit_not_sign, D0]. }
    rewrite (take_end _ DE). destruct e as [|c0 t0]; [congruence|]. rewrite VAL. f_equal. f_equal. f_equal. now destruct sg as [[|]|].
  - rewrite <- (Z.add_0_r (- Z.of_nat (List.length fr))). rewrite VAL. reflexivity.
Qed.
Definition to_E (x : option (ascii * option bool * text)) : option (ascii * option bool * text) :=
  match x with Some (c, s, e) => Some ((if Ascii.eqb c "D" then "E"%char else c), s, e) | None => None end.
Lemma replace_digits s : digits s -> replace "D"%char "E"%char s = s.
Proof. induction 1 as [|c s D H IH]; [reflexivity|]. cbn. destruct (Ascii.eqb_spec c "D"%char) as [->|_]; [discriminate|]. unfold replace in IH. now rewrite IH. Qed.
Lemma replace_app a b s t : replace a b (s ++ t) = replace a b s ++ replace a b t.
Proof. apply map_app. Qed.
Lemma replace_render d : valid true d -> replace "D"%char "E"%char (render d) = render (mkdec (d_sign d) (d_int d) (d_frac d) (to_E (d_exp d))).
Proof.
  intros (A & B & C). unfold render. cbn [d_sign d_int d_frac d_exp]. rewrite !replace_app, (replace_digits _ A).
  assert (S : forall s, replace "D"%char "E"%char (sign_text s) = sign_text s) by (intros [[|]|]; reflexivity). rewrite S. f_equal. f_equal. f_equal.
  - destruct (d_frac d); [|reflexivity]. cbn. f_equal. apply replace_digits, B.
  - destruct (d_exp d) as [[[c s] e]|]; [|reflexivity]. cbn [to_E]. change (replace "D"%char "E"%char (c :: sign_text s ++ e)) with ((if Ascii.eqb c "D" then "E"%char else c) :: replace "D"%char "E"%char (sign_text s ++ e)).
    f_equal. rewrite replace_app, S. f_equal. apply replace_digits, C.
Qed.
Lemma valid_E d : valid true d -> valid false (mkdec (d_sign d) (d_int d) (d_frac d) (to_E (d_exp d))) /\ value (mkdec (d_sign d) (d_int d) (d_frac d) (to_E (d_exp d))) = value d.
Proof.
  intros (A & B & C). split.
  - repeat split; [exact A|exact B|]. cbn [d_exp]. destruct (d_exp d) as [[[c s] e]|]; [|exact Logic.I]. cbn [to_E]. destruct C as (L & D & N). repeat split; [|exact D|exact N].
    destruct (Ascii.eqb_spec c "D"%char) as [->|Q]; [now left|]. unfold exp_letter in *. tauto.
  - unfold value, exponent_of. cbn [d_sign d_int d_frac d_exp]. destruct (d_exp d) as [[[c [[|]|]] e]|]; reflexivity.
Qed.
(** the value given to a printed number: float() for E and e, after the replacement of D by E for Fortran files *)
Theorem C115_values : (forall d, valid false d -> py_float (render d) = Ok (value d)) /\
  (forall d, valid true d -> py_float (replace "D"%char "E"%char (render d)) = Ok (value d)) /\
  (forall s n, digits n -> n <> [] -> py_int (sign_text s ++ n) = Ok (match s with Some true => - digits_value n | _ => digits_value n end)%Z /\ IZR (digits_value n) = numeral n).
Proof.
  split; [exact float_render|]. split.
  - intros d V. rewrite (replace_render _ V). destruct (valid_E _ V) as (V' & <-). now apply float_render.
  - intros s n D N. split; [|now apply digits_numeral]. unfold py_int. rewrite take_sign_ok.
    2: { destruct (digits_stop _ N D) as (c & t & -> & D0). exists c, t. split; [reflexivity|apply digit_not_sign, D0]. }
    rewrite (take_end _ D). destruct n; [congruence|]. now destruct s as [[|]|].
Qed.
Print Assumptions C115_values.

(** no line makes the conversion of a piece fail *)
Theorem C115_no_failure : forall line, Forall (fun t => exists x, py_float t = Ok x) (findall (number_pattern false) line) /\
  Forall (fun t => exists x, py_float (replace "D"%char "E"%char t) = Ok x) (findall (number_pattern true) line).
Proof.
  intros s. split; (eapply Forall_impl; [|apply C115_every_line]); cbn; intros t (d & V & ->); eexists.
  - apply (proj1 C115_values), V.
  - apply (proj1 (proj2 C115_values)), V.
Qed.
Print Assumptions C115_no_failure.

Definition gap_b (f : bool) (g : text) : bool := forallb (fun c => negb (is_digit c) && negb (is_point c) && negb (is_sign c)) g && match g with c :: _ => negb (is_exp f c) | [] => true end.
Lemma gap_b_ok f g : gap_b f g = true -> gap f g.
Proof.
  unfold gap_b. intros H. apply andb_prop in H. destruct H as [A B]. split.
  - apply Forall_forall. intros c I0. rewrite forallb_forall in A. specialize (A c I0). rewrite !andb_true_iff, !negb_true_iff in A. destruct A as ((A1 & A2) & A3). apply point_iff in A2. apply sign_iff in A3. tauto.
  - destruct g; [exact Logic.I|]. apply negb_true_iff in B. now apply exp_not.
Qed.
Ltac gap_tac := apply gap_b_ok; reflexivity.
Definition nonempty (s : text) : bool := match s with [] => false | _ => true end.
Definition valid_b (f : bool) (d : decimal) : bool :=
  forallb is_digit (d_int d) && (match d_frac d with Some x => forallb is_digit x && (nonempty (d_int d) || nonempty x) | None => nonempty (d_int d) end)
  && match d_exp d with Some (c, _, e) => is_exp f c && forallb is_digit e && nonempty e | None => true end.
Lemma nonempty_ok s : nonempty s = true -> s <> []. Proof. destruct s; cbn; congruence. Qed.
Lemma digits_b s : forallb is_digit s = true -> digits s.
Proof. intros H. apply Forall_forall. now apply forallb_forall. Qed.
Lemma valid_b_ok f d : valid_b f d = true -> valid f d.
Proof.
  unfold valid_b, valid. intros H. apply andb_prop in H. destruct H as [H C]. apply andb_prop in H. destruct H as [A B]. split; [apply digits_b, A|]. split.
  - destruct (d_frac d) as [x|]; [|apply nonempty_ok, B]. apply andb_prop in B. destruct B as [B1 B2]. split; [apply digits_b, B1|]. apply orb_prop in B2. destruct B2 as [B2|B2]; apply nonempty_ok in B2; tauto.
  - destruct (d_exp d) as [[[c s] e]|]; [|exact Logic.I]. apply andb_prop in C. destruct C as [C C3]. apply andb_prop in C. destruct C as [C1 C2]. split; [apply exp_iff, C1|]. split; [apply digits_b, C2|apply nonempty_ok, C3].
Qed.
Ltac valid_tac := apply valid_b_ok; reflexivity.
(** a time written with a Fortran exponent is not converted (harmonics.py 276 does not replace the D) *)
Theorem C115_fortran_time_refuted : exists t d, valid true d /\ t = render d /\ value d = 2005%R /\ py_float t = Err ValueError.
Proof.
  exists (chars "2.005D3"), (mkdec None (chars "2") (Some (chars "005")) (Some ("D"%char, None, chars "3"))).
  split; [|split; [reflexivity|split; [|reflexivity]]].
  - valid_tac.
  - unfold value, exponent_of. cbn [d_sign d_int d_frac d_exp negate]. rewrite <- !digits_numeral by repeat constructor.
    change (digits_value (chars "2")) with 2%Z. change (digits_value (chars "005")) with 5%Z. change (digits_value (chars "3")) with 3%Z. change (List.length (chars "005")) with 3%nat. unfold powerRZ. change (Pos.to_nat 3) with 3%nat. field.
Qed.

(** ** the pattern with a mandatory point *)
Definition scan_point (s : text) : option (text * text) :=
  let '(pre, s) := match s with c :: t => if is_sign c then ([c], t) else ([], s) | [] => ([], []) end in
  let '(a, r) := take_digits s in
  match r with
  | c :: t => if is_point c then let '(b, r') := take_digits t in let '(e, r'') := scan_exp false r' in Some (pre ++ a ++ c :: b ++ e, r'') else None
  | [] => None
  end.
Lemma point_body s : hd_error (matches (RSeq (RStar is_digit) (RSeq (RChar is_point) (RSeq (RStar is_digit) (exponent false)))) s) =
  let '(a, r) := take_digits s in
  match r with
  | c :: t => if is_point c then let '(b, r') := take_digits t in let '(e, r'') := scan_exp false r' in Some (a ++ c :: b ++ e, r'') else None
  | [] => None
  end.
Proof.
  rewrite star_seq.
  2: { intros c t H. rewrite char_seq. now rewrite (digit_not_point _ H). }
  rewrite span_digits. destruct (take_digits s) as [a r]. cbn [fst snd]. destruct r as [|c t]; [reflexivity|]. rewrite char_seq. destruct (is_point c); [|reflexivity].
  pose proof (star_hd is_digit t) as S1. rewrite span_digits in S1. destruct (take_digits t) as [b r']. pose proof (exp_scan false r') as S2. destruct (scan_exp false r') as [e r''].
  pose proof (seq_hd _ _ _ _ _ _ _ S1 S2) as H. destruct (matches (RSeq (RStar is_digit) (exponent false)) t) as [|[x y] l]; [discriminate|]. injection H as -> ->. reflexivity.
Qed.
Lemma point_scan s : re_match point_pattern s = scan_point s.
Proof.
  unfold re_match, point_pattern. rewrite opt_seq.
  2: { intros c t H. apply hd_nil. rewrite point_body. cbn [take_digits]. rewrite (sign_not_digit _ H). now rewrite (sign_not_point _ H). }
  destruct s as [|c t]; [reflexivity|]. unfold scan_point. destruct (is_sign c).
  - rewrite map_hd, point_body. destruct (take_digits t) as [a [|c' r]]; [reflexivity|]. destruct (is_point c'); [|reflexivity]. destruct (take_digits r) as [b r']. destruct (scan_exp false r'). reflexivity.
  - rewrite point_body. reflexivity.
Qed.
Lemma scan_point_none c t : is_digit c = false -> is_point c = false -> is_sign c = false -> re_match point_pattern (c :: t) = None.
Proof. intros A B C. rewrite point_scan. unfold scan_point. rewrite C. cbn [take_digits]. now rewrite A, B. Qed.
Lemma scan_point_render d f rest : valid false d -> d_frac d = Some f -> stops false rest -> scan_point (render d ++ rest) = Some (render d, rest).
Proof.
  intros V F K. rewrite render_eq, <- !app_assoc. unfold scan_point.
  assert (X : (match sign_text (d_sign d) ++ mant_text d ++ exp_text d ++ rest with c :: t => if is_sign c then ([c], t) else ([], c :: t) | [] => ([], []) end) = (sign_text (d_sign d), mant_text d ++ exp_text d ++ rest)).
  { destruct (mant_start _ _ V) as (c & t & -> & H). destruct (d_sign d) as [[|]|]; cbn [sign_text app]; [reflexivity|reflexivity|now rewrite H]. }
  replace (match sign_text (d_sign d) ++ mant_text d ++ exp_text d ++ rest with | [] => ([], []) | c :: t => if is_sign c then ([c], t) else ([], sign_text (d_sign d) ++ mant_text d ++ exp_text d ++ rest) end) with (sign_text (d_sign d), mant_text d ++ exp_text d ++ rest).
  2: { rewrite <- X. destruct (sign_text (d_sign d) ++ mant_text d ++ exp_text d ++ rest); reflexivity. }
  pose proof (stops_exp _ _ _ V K) as E. unfold mant_text. rewrite F. destruct V as (A & B & C). rewrite F in B. rewrite <- app_assoc. cbn [app]. rewrite (take_app _ _ A) by reflexivity. change (is_point "."%char) with true. cbn iota.
  rewrite (take_app _ _ (proj1 B)) by (destruct (exp_text d ++ rest); [exact Logic.I|apply E]). unfold exp_text at 1. rewrite scan_exp_ok; [|exact C|exact K]. cbn [app]. rewrite <- !app_assoc. reflexivity.
Qed.
(** a text without points, followed by neither a digit nor a point, is passed over *)
Lemma skip_pointless u rest : Forall (fun c => is_point c = false) u -> match rest with c :: _ => is_digit c = false /\ is_point c = false | [] => True end ->
  forall fuel, fuel > List.length (u ++ rest) -> exists fuel', fuel' > List.length rest /\ findall_at fuel point_pattern (u ++ rest) = findall_at fuel' point_pattern rest.
Proof.
  intros H K. assert (N : forall v, Forall (fun c => is_point c = false) v -> let '(a, r) := take_digits (v ++ rest) in match r with c :: _ => is_point c = false | [] => True end).
  { induction 1 as [|c v P V IH]; cbn [app].
    - destruct rest as [|c r]; cbn; [exact Logic.I|]. destruct K as (-> & K). exact K.
    - cbn [take_digits]. destruct (is_digit c); [|exact P]. destruct (take_digits (v ++ rest)) as [a r]. exact IH. }
  induction H as [|c u P U IH]; intros fuel F; [exists fuel; split; [exact F|reflexivity]|].
  destruct fuel as [|fuel]; [cbn in F; lia|]. cbn [app findall_at]. rewrite point_scan.
  assert (S : scan_point (c :: u ++ rest) = None).
  { unfold scan_point. destruct (is_sign c).
    - specialize (N u U). destruct (take_digits (u ++ rest)) as [a [|c' r]]; [reflexivity|]. now rewrite N.
    - specialize (N (c :: u) (Forall_cons _ P U)). cbn [app] in N. destruct (take_digits (c :: u ++ rest)) as [a [|c' r]]; [reflexivity|]. now rewrite N. }
  rewrite S. apply IH. cbn in F. lia.
Qed.
Definition has_point (d : decimal) : bool := match d_frac d with Some _ => true | None => false end.
Lemma pointless d : valid false d -> d_frac d = None -> Forall (fun c => is_point c = false) (render d).
Proof.
  intros (A & _ & C) F. unfold render. rewrite F.
  assert (D : forall s, digits s -> Forall (fun c => is_point c = false) s) by (intros s; apply Forall_impl; intros c; apply digit_not_point).
  assert (S : forall s, Forall (fun c => is_point c = false) (sign_text s)) by (intros [[|]|]; repeat constructor).
  apply Forall_app. split; [apply S|]. apply Forall_app. split; [apply D, A|]. cbn [app]. destruct (d_exp d) as [[[c s] e]|]; [|constructor].
  destruct C as (L & E & _). apply exp_iff in L. constructor; [exact (exp_not_point _ _ L)|]. apply Forall_app. split; [apply S|apply D, E].
Qed.
Lemma laid_pointed first ds s : laid false first ds s -> forall fuel, fuel > List.length s -> findall_at fuel point_pattern s = map render (filter has_point ds).
Proof.
  induction 1 as [first g G|first g d ds s G V S L IH]; intros fuel F.
  - destruct (findall_gap false point_pattern scan_point_none g [] fuel G) as (fuel' & F' & E); [now rewrite app_nil_r|].
    rewrite app_nil_r in E. rewrite E. apply findall_nil. now rewrite point_scan.
  - destruct (findall_gap false point_pattern scan_point_none g (render d ++ s) fuel G) as (fuel' & F' & E); [exact F|].
    rewrite E. pose proof (laid_stops _ _ _ L) as K. cbn [filter]. unfold has_point at 1. destruct (d_frac d) as [f|] eqn:Q.
    + destruct fuel' as [|n]; [lia|]. cbn [findall_at]. rewrite point_scan, (scan_point_render _ _ _ V Q K). cbn [map]. f_equal.
      apply IH. rewrite app_length in F'. pose proof (render_nonempty _ _ V). lia.
    + destruct (skip_pointless (render d) s (pointless _ V Q)) with (fuel := fuel') as (fuel'' & F'' & ->); [destruct s; [exact Logic.I|cbn in K; tauto]|exact F'|]. apply IH. exact F''.
Qed.
(** the pattern of the SLR and geocenter readers finds the numbers printed with a point and leaves out all others *)
Theorem C115_pointed_numbers : forall ds line, laid false true ds line -> findall point_pattern line = map render (filter has_point ds).
Proof. intros ds s L. unfold findall. apply (laid_pointed _ _ _ L). lia. Qed.
Print Assumptions C115_pointed_numbers.
(** unlike the other pattern it also takes a full stop for a number, whose conversion fails *)
Theorem C115_full_stop_refuted : findall point_pattern (chars "mean pole. ") = [["."%char]] /\ py_float ["."%char] = Err ValueError /\ forall f, findall (number_pattern f) (chars "mean pole. ") = [].
Proof. split; [reflexivity|]. split; [reflexivity|]. intros []; reflexivity. Qed.

(** an example: one line with a Fortran exponent and two numbers run together *)
Definition example_line : text := chars "  12   3 -0.48416D-03+1.5e-10 abc 7.".
Definition example_numbers : list decimal :=
  [mkdec None (chars "12") None None; mkdec None (chars "3") None None;
   mkdec (Some true) (chars "0") (Some (chars "48416")) (Some ("D"%char, Some true, chars "03"));
   mkdec (Some false) (chars "1") (Some (chars "5")) (Some ("e"%char, Some true, chars "10"));
   mkdec None (chars "7") (Some []) None].
Lemma laid_number_eq f first g d ds s s' : s' = g ++ render d ++ s -> gap f g -> valid f d -> (first = true \/ g <> [] \/ d_sign d <> None) -> laid f false ds s -> laid f first (d :: ds) s'.
Proof. intros ->. now apply laid_number. Qed.
Lemma example_laid : laid true true example_numbers example_line.
Proof.
  unfold example_numbers.
  apply (laid_number_eq true true (chars "  ") _ _ (chars "   3 -0.48416D-03+1.5e-10 abc 7.")); [reflexivity|gap_tac|valid_tac|now left|].
  apply (laid_number_eq true false (chars "   ") _ _ (chars " -0.48416D-03+1.5e-10 abc 7.")); [reflexivity|gap_tac|valid_tac|right; left; discriminate|].
  apply (laid_number_eq true false (chars " ") _ _ (chars "+1.5e-10 abc 7.")); [reflexivity|gap_tac|valid_tac|right; left; discriminate|].
  apply (laid_number_eq true false [] _ _ (chars " abc 7.")); [reflexivity|gap_tac|valid_tac|right; right; discriminate|].
  apply (laid_number_eq true false (chars " abc ") _ _ []); [reflexivity|gap_tac|valid_tac|right; left; discriminate|].
  apply laid_end. gap_tac.
Qed.
