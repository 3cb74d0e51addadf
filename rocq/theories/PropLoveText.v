(** C116: Love numbers from the text of their files, load_love_numbers, class love_numbers. *)
From Coq Require Import Reals Ascii String Lra Lia.
From Verif Require Import Base UnitsModel UtilModel LoveModel PropLove TextModel TextProofs PropText PropText2 LoveTextModel.
Close Scope Z_scope.
Close Scope R_scope.
Open Scope nat_scope.
Open Scope list_scope.

(** ** Specification *)
(** what is printed on a line: numbers, or the word inf *)
Inductive item := Num (d : decimal) | Infinite.
Definition item_text (x : item) : text := match x with Num d => render d | Infinite => chars "inf" end.
Definition item_ok (f : bool) (x : item) : Prop := match x with Num d => valid f d | Infinite => True end.
Definition item_signed (x : item) : Prop := match x with Num d => d_sign d <> None | Infinite => False end.
Definition no_i (g : text) : Prop := ~ In "i"%char g.
(** [shows f first xs s]: the line s shows the items xs, separated by text without the letter i, or by nothing before a sign *)
Inductive shows (f : bool) : bool -> list item -> text -> Prop :=
| shows_end first g : gap f g -> no_i g -> shows f first [] g
| shows_item first g x xs s : gap f g -> no_i g -> item_ok f x -> (first = true \/ g <> [] \/ item_signed x) -> shows f false xs s -> shows f first (x :: xs) (g ++ item_text x ++ s).
(** the item is the degree n: an integer, or inf for degree 100000 *)
Definition is_degree (x : item) (n : nat) : Prop :=
  match x with
  | Num d => d_frac d = None /\ d_exp d = None /\ d_sign d <> Some true /\ value d = INR n
  | Infinite => n = max_degree
  end.
Definition is_value (x : item) (v : R) : Prop := match x with Num d => value d = v | Infinite => False end.
(** a data line: degree, h, then k and l, or l and k if [swapped], then anything *)
Definition row_shows (swapped : bool) (line : text) (e : entry) : Prop :=
  exists x0 x1 x2 x3 more, shows true true (x0 :: x1 :: x2 :: x3 :: more) line /\ is_degree x0 (fst e) /\ is_value x1 (eh e) /\
    is_value x2 (if swapped then el e else ek e) /\ is_value x3 (if swapped then ek e else el e).
(** the published files: name, header lines, order of the columns, Earth model, citation *)
Definition published (k : Z) : option (string * nat * bool * string * string) :=
  match k with
  | 0%Z => Some ("love_numbers", 2, false, "PREM", "Han and Wahr (1995)")%string
  | 1%Z => Some ("Load_Love2_CE.dat", 3, true, "PREM", "Gegout et al. (2010)")%string
  | 2%Z => Some ("PREM-LLNs-truncated.dat", 1, true, "PREM", "Wang et al. (2012)")%string
  | 3%Z => Some ("PREMhard-LLNs-truncated.dat", 1, true, "PREMhard", "Wang et al. (2012)")%string
  | 4%Z => Some ("PREMsoft-LLNs-truncated.dat", 1, true, "PREMsoft", "Wang et al. (2012)")%string
  | _ => None
  end.
(** the lines of the file: header, then one line for every entry; the last one has degree d *)
Definition file_shows (header : nat) (swapped : bool) (lines : list text) (es : list entry) (d : nat) : Prop :=
  Forall2 (row_shows swapped) (skipn header lines) es /\ 2 <= d /\ exists es' e, es = es' ++ [e] /\ fst e = d.

(** ** the pieces found *)
Lemma love_none c t : is_digit c = false -> is_point c = false -> is_sign c = false -> c <> "i"%char -> re_match love_pattern (c :: t) = None.
Proof.
  intros A B C I0. rewrite love_scan. cbn [scan_love]. rewrite C. unfold scan_mant_love, scan_mant. cbn [take_digits]. rewrite A, B. destruct t as [|b [|d t]]; try reflexivity. cbn [scan_inf].
  destruct (str_eqb [c; b; d] (chars "inf")) eqn:E; [|reflexivity]. apply str_eqb_iff in E. injection E as -> _ _. congruence.
Qed.
Lemma love_gap f g s fuel : gap f g -> no_i g -> fuel > List.length (g ++ s) -> exists fuel', fuel' > List.length s /\ findall_at fuel love_pattern (g ++ s) = findall_at fuel' love_pattern s.
Proof.
  intros [G _]. revert fuel. induction G as [|c g (a & b & c1 & c2) G IH]; intros fuel NI L; [exists fuel; split; [exact L|reflexivity]|].
  destruct fuel as [|fuel]; [cbn in L; lia|]. cbn [app findall_at]. rewrite love_none; [apply IH; [intros Q; apply NI; now right|cbn in L; lia]|exact a|apply point_iff, b|apply sign_iff; tauto|intros ->; apply NI; now left].
Qed.
Lemma love_item x rest : item_ok false x -> stops false rest -> scan_love (item_text x ++ rest) = Some (item_text x, rest).
Proof.
  destruct x as [d|]; intros V K; cbn [item_text].
  - rewrite render_eq, <- !app_assoc. destruct (mant_start _ _ V) as (c & t & E & H).
    assert (SL : forall sg, scan_love (sign_text sg ++ mant_text d ++ exp_text d ++ rest) = tail_exp false (sign_text sg) (scan_mant_love (mant_text d ++ exp_text d ++ rest))).
    { intros sg. rewrite E. destruct sg as [[|]|]; cbn [sign_text app scan_love]; try reflexivity. now rewrite H. }
    rewrite SL. unfold scan_mant_love. rewrite (scan_mant_ok _ _ _ V K). cbn [tail_exp]. unfold exp_text at 1. rewrite scan_exp_ok; [reflexivity|apply V|exact K].
  - cbn [chars list_ascii_of_string app scan_love]. change (is_sign "i"%char) with false. cbn iota. unfold scan_mant_love.
    change (scan_mant ("i"%char :: "n"%char :: "f"%char :: rest)) with (@None (text * text)). cbn [scan_inf]. change (str_eqb ["i"%char; "n"%char; "f"%char] (chars "inf")) with true. cbn iota. cbn [tail_exp].
    assert (X : scan_exp false rest = ([], rest)). { destruct rest as [|c r]; [reflexivity|]. cbn in K |- *. destruct K as (_ & _ & ->). reflexivity. }
    now rewrite X.
Qed.
Lemma shows_stops f xs s : shows f false xs s -> stops f s.
Proof.
  assert (G : forall g u, gap f g -> g <> [] -> stops f (g ++ u)).
  { intros [|c g] u [A B] N; [congruence|]. cbn. inversion A as [|? ? (a & b & _) ?]; subst. repeat split; [exact a|apply point_iff, b|apply exp_not, B]. }
  intros H. inversion H as [? g A|? g x xs' s' A NI V S L]; subst.
  - destruct s as [|c s]; [exact Logic.I|]. rewrite <- (app_nil_r (c :: s)). apply G; [exact A|discriminate].
  - destruct g as [|c g]; [|apply G; [exact A|discriminate]]. destruct S as [S|[S|S]]; try congruence. destruct x as [d|]; [|destruct S]. cbn [item_text item_signed] in *. unfold render. destruct (d_sign d) as [[|]|]; [| |congruence]; cbn; repeat split; unfold is_exp; destruct f; reflexivity.
Qed.
Lemma item_nonempty f x : item_ok f x -> List.length (item_text x) > 0.
Proof. destruct x as [d|]; intros V; [exact (render_nonempty _ _ V)|cbn; lia]. Qed.
Lemma shows_found first xs s : shows false first xs s -> forall fuel, fuel > List.length s -> findall_at fuel love_pattern s = map item_text xs.
Proof.
  induction 1 as [first g G NI|first g x xs s G NI V S L IH]; intros fuel F.
  - destruct (love_gap false g [] fuel G NI) as (fuel' & F' & E); [now rewrite app_nil_r|]. rewrite app_nil_r in E. rewrite E. apply findall_nil. now rewrite love_scan.
  - destruct (love_gap false g (item_text x ++ s) fuel G NI F) as (fuel' & F' & ->). destruct fuel' as [|n]; [lia|]. cbn [findall_at]. rewrite love_scan, (love_item _ _ V (shows_stops _ _ _ L)). cbn [map]. f_equal.
    apply IH. rewrite app_length in F'. pose proof (item_nonempty _ _ V). lia.
Qed.
(** the replacement of D by E *)
Definition item_E (x : item) : item := match x with Num d => Num (mkdec (d_sign d) (d_int d) (d_frac d) (to_E (d_exp d))) | Infinite => Infinite end.
Lemma replace_gap g : gap true g -> no_i g -> gap false (replace "D"%char "E"%char g) /\ no_i (replace "D"%char "E"%char g).
Proof.
  intros [G H] NI. split; [split|].
  - unfold replace. apply Forall_map. eapply Forall_impl; [|exact G]. cbn. intros c C. destruct (Ascii.eqb_spec c "D"%char); [|exact C]. repeat split; discriminate.
  - destruct g as [|c g]; [exact Logic.I|]. cbn. destruct (Ascii.eqb_spec c "D"%char) as [->|N]; [exfalso; apply H; unfold exp_letter; auto|]. unfold exp_letter in *. intuition congruence.
  - unfold replace, no_i. intros I0. apply in_map_iff in I0. destruct I0 as (c & E & I0). destruct (Ascii.eqb_spec c "D"%char); [discriminate|]. subst. now apply NI.
Qed.
Lemma replace_item x : item_ok true x -> replace "D"%char "E"%char (item_text x) = item_text (item_E x) /\ item_ok false (item_E x) /\ (item_signed x -> item_signed (item_E x)).
Proof. destruct x as [d|]; intros V; [|now repeat split]. split; [exact (replace_render _ V)|]. split; [exact (proj1 (valid_E _ V))|]. cbn. tauto. Qed.
Lemma replace_shows first xs s : shows true first xs s -> shows false first (map item_E xs) (replace "D"%char "E"%char s).
Proof.
  induction 1 as [first g G NI|first g x xs s G NI V S L IH].
  - destruct (replace_gap g G NI). now apply shows_end.
  - rewrite !replace_app. destruct (replace_gap g G NI) as (G' & NI'). destruct (replace_item x V) as (-> & V' & S'). cbn [map]. apply shows_item; try assumption.
    destruct S as [S|[S|S]]; [now left| |right; right; now apply S']. right. left. destruct g; [congruence|discriminate].
Qed.
Lemma row_found xs s : shows true true xs s -> findall love_pattern (replace "D"%char "E"%char s) = map item_text (map item_E xs).
Proof. intros H. unfold findall. apply (shows_found true); [now apply replace_shows|lia]. Qed.

(** ** tokens *)
Definition item_tok (x : item) (t : tok) : Prop := match x with Num d => tok_float t = Ok (value d) | Infinite => t = TInf end.
Lemma int_of_render d : valid false d -> d_frac d = None -> d_exp d = None -> py_int (render d) = Ok (match d_sign d with Some true => - digits_value (d_int d) | _ => digits_value (d_int d) end)%Z /\ value d = negate (d_sign d) (IZR (digits_value (d_int d))).
Proof.
  intros (A & B & _) F E. rewrite F in B. split.
  - unfold render. rewrite F, E, !app_nil_r. apply (proj2 (proj2 C115_values)); assumption.
  - unfold value, exponent_of. rewrite F, E. cbn [powerRZ]. rewrite Rplus_0_r, Rmult_1_r, digits_numeral by exact A. reflexivity.
Qed.
Lemma digits_nonneg s : digits s -> (0 <= digits_value s)%Z.
Proof.
  intros H. unfold digits_value. assert (G : forall a, (0 <= a)%Z -> (0 <= fold_left (fun a c => 10 * a + digit_value c) s a)%Z).
  { induction H as [|c s D H IH]; intros a Ha; cbn [fold_left]; [exact Ha|]. apply IH. pose proof (digit_value_ok _ D). lia. }
  apply G. lia.
Qed.
Lemma int_fails d : valid false d -> (d_frac d <> None \/ d_exp d <> None) -> py_int (render d) = Err ValueError.
Proof.
  intros V H. unfold py_int. rewrite render_eq, take_sign_ok.
  2: { destruct (mant_start _ _ V) as (c & t & -> & Q). exists c. eexists. split; [reflexivity|exact Q]. }
  destruct V as (A & B & C). unfold mant_text, exp_text. destruct (d_frac d) as [f|].
  - rewrite <- app_assoc, (take_app _ _ A) by reflexivity. cbn [app]. now destruct (d_int d).
  - destruct H as [H|H]; [congruence|]. rewrite app_nil_r. destruct (d_exp d) as [[[c s] e]|]; [|congruence]. destruct C as (L & _). apply exp_iff in L.
    rewrite (take_app _ _ A) by (exact (exp_not_digit _ _ L)). cbn [app]. now destruct (d_int d).
Qed.
Lemma not_inf d : valid false d -> str_eqb (render d) (chars "inf") = false.
Proof.
  intros (A & B & C). destruct (str_eqb (render d) (chars "inf")) eqn:E; [|reflexivity]. apply str_eqb_iff in E. unfold render in E. destruct (d_sign d) as [[|]|]; [discriminate|discriminate|]. cbn [sign_text app] in E.
  destruct (d_int d) as [|c t]; [destruct (d_frac d); [discriminate|congruence]|]. inversion A as [|? ? D ?]; subst. injection E as -> _. discriminate.
Qed.
Lemma love_tok_ok x : item_ok false x -> exists t, love_tok (item_text x) = Ok t /\ item_tok x t /\ forall n, is_degree x n -> t = TInt n \/ (t = TInf /\ n = max_degree).
Proof.
  destruct x as [d|]; intros V; cbn [item_text].
  2: { exists TInf. repeat split. intros n H. right. now split. }
  unfold love_tok. rewrite (not_inf _ V).
  assert (DEC : (d_frac d = None /\ d_exp d = None) \/ (d_frac d <> None \/ d_exp d <> None)) by (destruct (d_frac d), (d_exp d); auto; right; (left; discriminate) || (right; discriminate)).
  destruct DEC as [[F E]|H].
  - destruct (int_of_render d V F E) as (-> & VAL). pose proof (digits_nonneg _ (proj1 V)) as P.
    destruct (Z.ltb_spec (match d_sign d with Some true => - digits_value (d_int d) | _ => digits_value (d_int d) end)%Z 0) as [L|L].
    + eexists. split; [reflexivity|]. destruct (d_sign d) as [[|]|] eqn:SG; [|lia|lia]. split; [cbn [item_tok tok_float]; rewrite VAL; cbn [negate]; now rewrite opp_IZR|].
      intros n (_ & _ & C & _). congruence.
    + eexists. split; [reflexivity|]. split.
      * cbn [item_tok tok_float]. rewrite VAL, INR_IZR_INZ, Z2Nat.id by exact L. destruct (d_sign d) as [[|]|]; cbn [negate]; [now rewrite opp_IZR|reflexivity|reflexivity].
      * intros n (_ & _ & C & D). left. f_equal. rewrite VAL in D. destruct (d_sign d) as [[|]|]; [congruence| |]; cbn [negate] in D; rewrite INR_IZR_INZ in D; apply eq_IZR in D; lia.
  - rewrite (int_fails d V H), (proj1 C115_values d V). cbn [bind]. eexists. split; [reflexivity|]. split; [reflexivity|]. intros n (A & B & _). tauto.
Qed.
Lemma toks_ok xs : Forall (item_ok false) xs -> exists ts, mapM love_tok (map item_text xs) = Ok ts /\ Forall2 (fun x t => item_tok x t /\ forall n, is_degree x n -> t = TInt n \/ (t = TInf /\ n = max_degree)) xs ts.
Proof.
  induction 1 as [|x xs V H (ts & E & F)]; [exists []; split; [reflexivity|constructor]|]. destruct (love_tok_ok x V) as (t & T1 & T2 & T3). exists (t :: ts). split; [|constructor; [split; assumption|exact F]].
  cbn [map mapM]. now rewrite T1, E.
Qed.
Lemma shows_items f first xs s : shows f first xs s -> Forall (item_ok f) xs.
Proof. induction 1; constructor; assumption. Qed.
Lemma degree_E x n : item_ok true x -> is_degree x n -> is_degree (item_E x) n.
Proof. destruct x as [d|]; [|trivial]. intros V (A & B & C & D). cbn [item_E is_degree]. rewrite (proj2 (valid_E d V)). cbn [d_frac d_exp d_sign]. rewrite A, B. cbn. tauto. Qed.
Lemma value_E x v : item_ok true x -> is_value x v -> is_value (item_E x) v.
Proof. destruct x as [d|]; [|trivial]. intros V H. cbn [item_E is_value]. now rewrite (proj2 (valid_E d V)). Qed.
Lemma tok_value x t v : item_tok x t -> is_value x v -> tok_float t = Ok v.
Proof. destruct x as [d|]; [|intros _ []]. cbn. intros H <-. exact H. Qed.
(** columns: degree, h, then k and l or l and k, then others *)
Definition columns_of (swapped : bool) (cols : list string) : Prop := exists more, cols = (["l"%string; "hl"%string] ++ (if swapped then ["ll"%string; "kl"%string] else ["kl"%string; "ll"%string]) ++ more)%list.
Lemma row_ok swapped cols line e : columns_of swapped cols -> row_shows swapped line e -> exists ts, love_row line = Ok ts /\ reads cols ts e.
Proof.
  intros (mc & ->) (x0 & x1 & x2 & x3 & more & SH & D0 & V1 & V2 & V3). unfold love_row. rewrite (row_found _ _ SH). pose proof (shows_items _ _ _ _ SH) as IT.
  pose proof (shows_items _ _ _ _ (replace_shows _ _ _ SH)) as IT'. destruct (toks_ok _ IT') as (ts & E & F). exists ts. split; [exact E|].
  inversion IT as [|? ? I0 IT1]; subst. inversion IT1 as [|? ? I1 IT2]; subst. inversion IT2 as [|? ? I2 IT3]; subst. inversion IT3 as [|? ? I3 _]; subst.
  cbn [map] in F. inversion F as [|? t0 ? ts0 [T0 T0'] F0]; subst. inversion F0 as [|? t1 ? ts1 [T1 _] F1]; subst. inversion F1 as [|? t2 ? ts2 [T2 _] F2]; subst. inversion F2 as [|? t3 ? ts3 [T3 _] F3]; subst.
  pose proof (T0' _ (degree_E _ _ I0 D0)) as DEG. pose proof (tok_value _ _ _ T1 (value_E _ _ I1 V1)) as H1. pose proof (tok_value _ _ _ T2 (value_E _ _ I2 V2)) as H2. pose proof (tok_value _ _ _ T3 (value_E _ _ I3 V3)) as H3.
  unfold reads, columnf, column. destruct swapped; cbn [app index_of String.eqb Ascii.eqb Bool.eqb nth_error bind]; (split; [destruct DEG as [->|[-> ->]]; auto|]); repeat split; assumption.
Qed.
Lemma rows_ok swapped cols lines es : columns_of swapped cols -> Forall2 (row_shows swapped) lines es -> exists rows, mapM love_row lines = Ok rows /\ Forall2 (reads cols) rows es.
Proof.
  intros C H. induction H as [|line e lines es R H (rows & E & F)]; [exists []; split; [reflexivity|constructor]|]. destruct (row_ok _ _ _ _ C R) as (ts & T & RD). exists (ts :: rows). split; [|now constructor].
  cbn [mapM]. now rewrite T, E.
Qed.
