(** C115: the numbers of text files.  Specification: what a printed number is, what its value is, how numbers are laid out on a line. *)
From Coq Require Import Reals Ascii String Lra Lia.
From Verif Require Import Base Arr DestripeModel UtilModel HarmModel TextModel TextProofs.
Close Scope Z_scope.
Open Scope list_scope.

(** ** Specification *)
(** a printed number: sign (Some true: minus), digits before the point, digits after the point (None: no point), exponent (letter, sign, digits) *)
Record decimal := mkdec { d_sign : option bool; d_int : text; d_frac : option text; d_exp : option (ascii * option bool * text) }.
Definition sign_text (s : option bool) : text := match s with None => [] | Some true => ["-"%char] | Some false => ["+"%char] end.
Definition render (d : decimal) : text :=
  sign_text (d_sign d) ++ d_int d ++ (match d_frac d with Some f => "."%char :: f | None => [] end)
  ++ (match d_exp d with Some (c, s, e) => c :: sign_text s ++ e | None => [] end).
Definition digits (s : text) : Prop := Forall (fun c => is_digit c = true) s.
(** the letters allowed before an exponent: E and e, and for Fortran files D *)
Definition exp_letter (fortran : bool) (c : ascii) : Prop := c = "E"%char \/ c = "e"%char \/ (fortran = true /\ c = "D"%char).
Definition valid (fortran : bool) (d : decimal) : Prop :=
  digits (d_int d) /\ (match d_frac d with Some f => digits f /\ (d_int d <> [] \/ f <> []) | None => d_int d <> [] end)
  /\ match d_exp d with Some (c, _, e) => exp_letter fortran c /\ digits e /\ e <> [] | None => True end.
(** value of a sequence of digits, and of a printed number *)
Open Scope R_scope.
Fixpoint numeral (s : text) : R := match s with [] => 0 | c :: t => INR (nat_of_ascii c - 48) * 10 ^ List.length t + numeral t end.
Definition negate (s : option bool) (x : R) : R := match s with Some true => - x | _ => x end.
Definition exponent_of (d : decimal) : Z := match d_exp d with Some (_, Some true, e) => (- digits_value e)%Z | Some (_, _, e) => digits_value e | None => 0%Z end.
Definition value (d : decimal) : R :=
  negate (d_sign d) (numeral (d_int d) + match d_frac d with Some f => numeral f / 10 ^ List.length f | None => 0 end) * powerRZ 10 (exponent_of d).
Close Scope R_scope.
(** text between numbers: no digit, point or sign, and no exponent letter directly behind a number *)
Definition gap (fortran : bool) (g : text) : Prop :=
  Forall (fun c => is_digit c = false /\ c <> "."%char /\ c <> "-"%char /\ c <> "+"%char) g /\ match g with c :: _ => ~ exp_letter fortran c | [] => True end.
(** [laid f first ds s]: the line s shows the numbers ds, separated by text, or by nothing when the next number has a sign *)
Inductive laid (fortran : bool) : bool -> list decimal -> text -> Prop :=
| laid_end first g : gap fortran g -> laid fortran first [] g
| laid_number first g d ds s : gap fortran g -> valid fortran d -> (first = true \/ g <> [] \/ d_sign d <> None) ->
    laid fortran false ds s -> laid fortran first (d :: ds) (g ++ render d ++ s).
(** the pieces ts occur in s in this order, without overlap, and no digit of s is outside of them *)
Inductive covers : list text -> text -> Prop :=
| covers_end g : Forall (fun c => is_digit c = false) g -> covers [] g
| covers_piece g t ts s : Forall (fun c => is_digit c = false) g -> covers ts s -> covers (t :: ts) (g ++ t ++ s).

(** ** Proofs: classes *)
Lemma exp_iff f c : is_exp f c = true <-> exp_letter f c.
Proof.
  unfold is_exp, exp_letter. rewrite !orb_true_iff, andb_true_iff, !Ascii.eqb_eq. tauto.
Qed.
Lemma exp_not f c : is_exp f c = false <-> ~ exp_letter f c.
Proof. rewrite <- exp_iff. destruct (is_exp f c); split; congruence. Qed.
Lemma sign_iff c : is_sign c = false <-> c <> "-"%char /\ c <> "+"%char.
Proof. unfold is_sign. rewrite orb_false_iff, !Ascii.eqb_neq. tauto. Qed.
Lemma point_iff c : is_point c = false <-> c <> "."%char.
Proof. unfold is_point. apply Ascii.eqb_neq. Qed.
Lemma digit_not_sign c : is_digit c = true -> is_sign c = false.
Proof. destruct (is_sign c) eqn:E; [|reflexivity]. apply sign_not_digit in E. congruence. Qed.
Lemma digit_not_point c : is_digit c = true -> is_point c = false.
Proof. destruct (is_point c) eqn:E; [|reflexivity]. apply point_not_digit in E. congruence. Qed.
Lemma digit_not_exp f c : is_digit c = true -> is_exp f c = false.
Proof. destruct (is_exp f c) eqn:E; [|reflexivity]. apply exp_not_digit in E. congruence. Qed.

(** a text that does not continue a number *)
Definition stops (f : bool) (s : text) : Prop := match s with c :: _ => is_digit c = false /\ is_point c = false /\ is_exp f c = false | [] => True end.
Definition stops_digit (s : text) : Prop := match s with c :: _ => is_digit c = false | [] => True end.
Lemma stops_d f s : stops f s -> stops_digit s.
Proof. destruct s; cbn; tauto. Qed.
Lemma take_app a s : digits a -> stops_digit s -> take_digits (a ++ s) = (a, s).
Proof.
  intros H K. induction H as [|c a D H IH]; cbn.
  - destruct s as [|c s]; [reflexivity|]. cbn in *. now rewrite K.
  - now rewrite D, IH.
Qed.
Lemma take_spec s : let '(a, r) := take_digits s in s = a ++ r /\ digits a /\ stops_digit r.
Proof.
  induction s as [|c t IH]; cbn; [repeat split; constructor|]. destruct (is_digit c) eqn:D.
  - destruct (take_digits t) as [a r]. destruct IH as (-> & A & B). repeat split; [constructor; assumption|assumption].
  - repeat split; [constructor|exact D].
Qed.
Lemma digits_stop a : a <> [] -> digits a -> exists c t, a = c :: t /\ is_digit c = true.
Proof. intros H D. destruct D as [|c t D' _]; [congruence|]. eauto. Qed.

Definition exp_text (d : decimal) : text := match d_exp d with Some (c, s, e) => c :: sign_text s ++ e | None => [] end.
Definition mant_text (d : decimal) : text := d_int d ++ (match d_frac d with Some f => "."%char :: f | None => [] end).
Lemma render_eq d : render d = sign_text (d_sign d) ++ mant_text d ++ exp_text d.
Proof. unfold render, mant_text, exp_text. now rewrite <- app_assoc. Qed.
Definition exp_ok (f : bool) (x : option (ascii * option bool * text)) : Prop := match x with Some (c, _, e) => exp_letter f c /\ digits e /\ e <> [] | None => True end.
Lemma scan_exp_ok f x rest : exp_ok f x -> stops f rest ->
  scan_exp f ((match x with Some (c, s, e) => c :: sign_text s ++ e | None => [] end) ++ rest) = ((match x with Some (c, s, e) => c :: sign_text s ++ e | None => [] end), rest).
Proof.
  intros H K. destruct x as [[[c s] e]|].
  - destruct H as (L & D & N). apply exp_iff in L. destruct (digits_stop _ N D) as (c0 & t0 & -> & D0).
    destruct s as [[|]|]; cbn [sign_text app scan_exp]; rewrite L.
    + change (is_sign "-"%char) with true. cbn iota. change (c0 :: t0 ++ rest) with ((c0 :: t0) ++ rest). rewrite (take_app _ _ D (stops_d _ _ K)). reflexivity.
    + change (is_sign "+"%char) with true. cbn iota. change (c0 :: t0 ++ rest) with ((c0 :: t0) ++ rest). rewrite (take_app _ _ D (stops_d _ _ K)). reflexivity.
    + rewrite (digit_not_sign _ D0). change (c0 :: t0 ++ rest) with ((c0 :: t0) ++ rest). rewrite (take_app _ _ D (stops_d _ _ K)). reflexivity.
  - cbn [app]. destruct rest as [|c r]; [reflexivity|]. cbn in K |- *. destruct K as (_ & _ & ->). reflexivity.
Qed.
(** the text behind the mantissa *)
Lemma stops_exp f d rest : valid f d -> stops f rest -> match exp_text d ++ rest with c :: _ => is_digit c = false /\ is_point c = false | [] => True end.
Proof.
  intros (_ & _ & V) K. unfold exp_text. destruct (d_exp d) as [[[c s] e]|]; cbn [app].
  - destruct V as (L & _). apply exp_iff in L. split; [exact (exp_not_digit _ _ L)|exact (exp_not_point _ _ L)].
  - destruct rest; [exact Logic.I|]. cbn in K. tauto.
Qed.
Lemma scan_mant_ok f d rest : valid f d -> stops f rest -> scan_mant (mant_text d ++ exp_text d ++ rest) = Some (mant_text d, exp_text d ++ rest).
Proof.
  intros V K. pose proof (stops_exp _ _ _ V K) as E. destruct V as (I0 & F & _). unfold mant_text, scan_mant. set (r := exp_text d ++ rest) in *. clearbody r.
  destruct (d_frac d) as [fr|].
  - destruct F as (DF & NE). rewrite <- app_assoc. rewrite (take_app _ ((("."%char :: fr)) ++ r) I0 eq_refl). cbn [app]. change (is_point "."%char) with true. cbn iota.
    rewrite (take_app _ _ DF) by (destruct r; [exact Logic.I|apply E]). destruct fr as [|c fr]; [|reflexivity].
    destruct (d_int d) eqn:DI; [destruct NE; congruence|reflexivity].
  - rewrite app_nil_r. rewrite (take_app _ _ I0) by (destruct r; [exact Logic.I|apply E]). destruct r as [|c r].
    + destruct (d_int d); [congruence|reflexivity].
    + destruct E as (_ & ->). destruct (d_int d); [congruence|reflexivity].
Qed.
Lemma mant_start d f : valid f d -> exists c t, mant_text d = c :: t /\ is_sign c = false.
Proof.
  intros (I0 & F & _). unfold mant_text. destruct (d_int d) as [|c t] eqn:E.
  - destruct (d_frac d); [|congruence]. exists "."%char, l. split; reflexivity.
  - exists c. eexists. split; [reflexivity|]. apply digit_not_sign. inversion I0; assumption.
Qed.
Lemma scan_sign f (s : option bool) m : (exists c t, m = c :: t /\ is_sign c = false) ->
  scan f (sign_text s ++ m) = tail_exp f (sign_text s) (scan_mant m).
Proof. intros (c & t & -> & H). destruct s as [[|]|]; cbn [sign_text app scan]; try reflexivity. now rewrite H. Qed.
Lemma scan_render f d rest : valid f d -> stops f rest -> scan f (render d ++ rest) = Some (render d, rest).
Proof.
  intros V K. rewrite render_eq. rewrite <- !app_assoc. rewrite scan_sign.
  - rewrite (scan_mant_ok _ _ _ V K). cbn [tail_exp]. unfold exp_text at 1. rewrite scan_exp_ok; [reflexivity|apply V|exact K].
  - destruct (mant_start _ _ V) as (c & t & -> & H). exists c. eexists. split; [reflexivity|exact H].
Qed.
Lemma scan_none f c t : is_digit c = false -> is_point c = false -> is_sign c = false -> scan f (c :: t) = None.
Proof. intros A B C. cbn [scan]. rewrite C. unfold scan_mant. cbn [take_digits]. rewrite A, B. reflexivity. Qed.


Lemma laid_stops f ds s : laid f false ds s -> stops f s.
Proof.
  assert (G : forall g u, gap f g -> g <> [] -> stops f (g ++ u)).
  { intros [|c g] u [A B] N; [congruence|]. cbn. inversion A as [|? ? (a & b & _) ?]; subst. repeat split; [exact a|apply point_iff, b|apply exp_not, B]. }
  intros H. inversion H as [? g A|? g d ds' s' A V S L]; subst.
  - destruct s as [|c s]; [exact Logic.I|]. rewrite <- (app_nil_r (c :: s)). apply G; [exact A|discriminate].
  - destruct g as [|c g]; [|apply G; [exact A|discriminate]]. destruct S as [S|[S|S]]; try congruence. unfold render. destruct (d_sign d) as [[|]|]; [| |congruence]; cbn; repeat split; unfold is_exp; destruct f; reflexivity.
Qed.
Lemma findall_gap f (p : regex) : (forall c t, is_digit c = false -> is_point c = false -> is_sign c = false -> re_match p (c :: t) = None) ->
  forall g s fuel, gap f g -> fuel > List.length (g ++ s) -> exists fuel', fuel' > List.length s /\ findall_at fuel p (g ++ s) = findall_at fuel' p s.
Proof.
  intros N g s fuel [G _]. revert fuel. induction G as [|c g (a & b & c1 & c2) G IH]; intros fuel L; [exists fuel; split; [exact L|reflexivity]|].
  destruct fuel as [|fuel]; [cbn in L; lia|]. cbn [app findall_at]. rewrite N; [apply IH; cbn in L; lia|exact a|apply point_iff, b|apply sign_iff; tauto].
Qed.
Lemma number_none f c t : is_digit c = false -> is_point c = false -> is_sign c = false -> re_match (number_pattern f) (c :: t) = None.
Proof. intros. rewrite number_scan. now apply scan_none. Qed.
Lemma render_nonempty f d : valid f d -> List.length (render d) > 0.
Proof. intros V. rewrite render_eq, !app_length. destruct (mant_start _ _ V) as (c & t & -> & _). cbn. lia. Qed.
Lemma findall_nil p fuel : re_match p [] = None -> findall_at fuel p [] = [].
Proof. intros H. destruct fuel; cbn [findall_at]; [reflexivity|now rewrite H]. Qed.
Lemma laid_found f first ds s : laid f first ds s -> forall fuel, fuel > List.length s -> findall_at fuel (number_pattern f) s = map render ds.
Proof.
  induction 1 as [first g G|first g d ds s G V S L IH]; intros fuel F.
  - destruct (findall_gap f (number_pattern f) (number_none f) g [] fuel G) as (fuel' & F' & E); [now rewrite app_nil_r|].
    rewrite app_nil_r in E. rewrite E. apply findall_nil. now rewrite number_scan.
  - destruct (findall_gap f (number_pattern f) (number_none f) g (render d ++ s) fuel G) as (fuel' & F' & E); [exact F|].
    rewrite E. destruct fuel' as [|n]; [lia|]. cbn [findall_at]. rewrite number_scan, (scan_render _ _ _ V (laid_stops _ _ _ L)). cbn [map]. f_equal.
    apply IH. rewrite app_length in F'. pose proof (render_nonempty _ _ V). lia.
Qed.

(** ** C115: the numbers found on a line are exactly the numbers printed on it, in order *)
Theorem C115_numbers_found : forall fortran ds line, laid fortran true ds line -> findall (number_pattern fortran) line = map render ds.
Proof. intros f ds s L. unfold findall. apply (laid_found _ _ _ _ L). lia. Qed.
Print Assumptions C115_numbers_found.

(** ** every line: what is found are numbers, in order, and no digit is lost *)
Lemma scan_exp_inv f s : exists x, exp_ok f x /\ fst (scan_exp f s) = (match x with Some (c, sg, e) => c :: sign_text sg ++ e | None => [] end) /\ s = fst (scan_exp f s) ++ snd (scan_exp f s).
Proof.
  assert (N : exists x, exp_ok f x /\ (@nil ascii) = (match x with Some (c, sg, e) => c :: sign_text sg ++ e | None => [] end) /\ s = [] ++ s) by (exists None; repeat split).
  unfold scan_exp. destruct s as [|c t]; [exact N|]. destruct (is_exp f c) eqn:E; [|exact N]. destruct t as [|d u]; [exact N|]. destruct (is_sign d) eqn:S.
  - pose proof (take_spec u) as T. destruct (take_digits u) as [[|x0 x] r]; [exact N|]. destruct T as (-> & D & _). cbn [fst snd].
    exists (Some (c, Some (Ascii.eqb d "-"), x0 :: x)). cbn [exp_ok]. repeat split; [apply exp_iff, E|exact D|discriminate|].
    f_equal. destruct (Ascii.eqb_spec d "-"%char) as [->|Q]; [reflexivity|]. cbn. unfold is_sign in S. apply orb_prop in S. destruct S as [S|S]; apply Ascii.eqb_eq in S; [congruence|]. now subst.
  - pose proof (take_spec (d :: u)) as T. destruct (take_digits (d :: u)) as [[|x0 x] r]; [exact N|]. destruct T as (-> & D & _). cbn [fst snd].
    exists (Some (c, None, x0 :: x)). cbn [exp_ok]. repeat split; [apply exp_iff, E|exact D|discriminate].
Qed.
Lemma scan_mant_inv s m r : scan_mant s = Some (m, r) -> s = m ++ r /\ exists i fr, digits i /\ (match fr with Some f => digits f /\ (i <> [] \/ f <> []) | None => i <> [] end) /\
   m = i ++ (match fr with Some f => "."%char :: f | None => [] end).
Proof.
  unfold scan_mant. pose proof (take_spec s) as T. destruct (take_digits s) as [a q]. destruct T as (-> & A & _).
  assert (P : forall x, (match a with [] => None | _ => Some (a, x) end) = Some (m, r) -> x = q -> a ++ q = m ++ r /\ exists i fr, digits i /\ (match fr with Some f => digits f /\ (i <> [] \/ f <> []) | None => i <> [] end) /\
   m = i ++ (match fr with Some f => "."%char :: f | None => [] end)).
  { intros x H ->. destruct a as [|a0 a]; [discriminate|]. injection H as <- <-. split; [reflexivity|]. exists (a0 :: a), None. repeat split; [exact A|discriminate|now rewrite app_nil_r]. }
  destruct q as [|c t]; [intros H; apply (P [] H eq_refl)|]. destruct (is_point c) eqn:E; [|intros H; apply (P (c :: t) H eq_refl)].
  unfold is_point in E. apply Ascii.eqb_eq in E. subst c. pose proof (take_spec t) as T. destruct (take_digits t) as [[|b0 b] r'].
  - destruct a as [|a0 a]; [discriminate|]. intros H. injection H as <- <-. split; [cbn; now rewrite <- app_assoc|]. exists (a0 :: a), (Some []). repeat split; [exact A|constructor|left; discriminate].
  - destruct T as (-> & B & _). intros H. injection H as <- <-. split; [now rewrite <- app_assoc|]. exists a, (Some (b0 :: b)). repeat split; [exact A|exact B|right; discriminate].
Qed.
Lemma sign_of_text c : is_sign c = true -> exists s, [c] = sign_text (Some s).
Proof. unfold is_sign. intros H. apply orb_prop in H. destruct H as [H|H]; apply Ascii.eqb_eq in H; subst; [exists true|exists false]; reflexivity. Qed.
Lemma tail_inv f sg s t rest : tail_exp f (sign_text sg) (scan_mant s) = Some (t, rest) -> sign_text sg ++ s = t ++ rest /\ exists d, valid f d /\ t = render d.
Proof.
  destruct (scan_mant s) as [[m r]|] eqn:M; [|discriminate]. cbn [tail_exp]. apply scan_mant_inv in M. destruct M as (-> & i & fr & A & B & ->).
  destruct (scan_exp_inv f r) as (x & X & X1 & X2). destruct (scan_exp f r) as [e r']. cbn [fst snd] in *. intros H. injection H as <- <-. split; [now rewrite X2, <- !app_assoc|].
  exists (mkdec sg i fr x). split; [repeat split; assumption|]. unfold render. cbn [d_sign d_int d_frac d_exp]. now rewrite X1, <- app_assoc.
Qed.
Lemma scan_inv f s t rest : scan f s = Some (t, rest) -> s = t ++ rest /\ exists d, valid f d /\ t = render d.
Proof.
  destruct s as [|c s]; [discriminate|]. cbn [scan]. destruct (is_sign c) eqn:S.
  - destruct (sign_of_text _ S) as (b & E). rewrite E. intros H. apply tail_inv in H. rewrite <- E in H. exact H.
  - intros H. apply (tail_inv f None) in H. exact H.
Qed.
Lemma scan_digit f c t : is_digit c = true -> scan f (c :: t) <> None.
Proof.
  intros D. cbn [scan]. rewrite (digit_not_sign _ D). unfold scan_mant. cbn [take_digits]. rewrite D. destruct (take_digits t) as [a r]. destruct r as [|c' u].
  - cbn. now destruct (scan_exp f []).
  - destruct (is_point c'); [destruct (take_digits u) as [[|b0 b] r']|]; cbn [tail_exp]; destruct (scan_exp f _); discriminate.
Qed.
Lemma all_covered f : forall fuel s, fuel > List.length s -> covers (findall_at fuel (number_pattern f) s) s /\ Forall (fun t => exists d, valid f d /\ t = render d) (findall_at fuel (number_pattern f) s).
Proof.
  induction fuel as [|fuel IH]; intros s F; [lia|]. cbn [findall_at]. rewrite number_scan. destruct (scan f s) as [[t r]|] eqn:E.
  - apply scan_inv in E. destruct E as (-> & d & V & ->). pose proof (render_nonempty _ _ V). rewrite app_length in F. destruct (IH r) as (C & D); [lia|].
    split; [apply (covers_piece [] (render d)); [constructor|exact C]|]. constructor; [eauto|exact D].
  - destruct s as [|c s]; [split; constructor; constructor|]. assert (N : is_digit c = false). { destruct (is_digit c) eqn:Q; [|reflexivity]. now apply (scan_digit f _ s) in Q. }
    cbn in F. destruct (IH s) as (C & D); [lia|]. split; [|exact D]. inversion C as [g G|g u ts w G C']; subst.
    + constructor. now constructor.
    + apply (covers_piece (c :: g) u ts w); [now constructor|exact C'].
Qed.
(** whatever the line contains: the pieces found are printed numbers, they occur in this order without overlap, and every digit of the line
    belongs to one of them *)
Theorem C115_every_line : forall fortran line,
  covers (findall (number_pattern fortran) line) line /\
  Forall (fun t => exists d, valid fortran d /\ t = render d) (findall (number_pattern fortran) line).
Proof. intros f s. apply all_covered. lia. Qed.
Print Assumptions C115_every_line.
