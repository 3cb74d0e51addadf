(** C119: dates, centre, release and version from the names of GRACE files (NameModel): which names are accepted, what is taken out of them, and which file is
    kept for a date *)
From Coq Require Import Ascii String List Arith Lia Bool ZArith.
From Verif Require Import Base UtilModel TextModel ReduceModel ReduceProofs NcIndexModel NameModel NameProofs.
Import ListNotations.
Close Scope Z_scope.
Open Scope nat_scope.
Open Scope list_scope.

(** ** specification *)
Definition number_of (n : nat) (d : text) : Prop := List.length d = n /\ Forall (fun c => is_digit c = true) d.
Definition one_line (a : text) : Prop := Forall (fun c => c <> newline) a.
Definition without (c : ascii) (a : text) : Prop := ~ In c a.
Definition a_center (c : text) : Prop := exists w, In w centers /\ c = chars w.
Definition a_suffix (c : text) : Prop := exists w, In w suffixes /\ c = chars w.
(** the parts of a name, in the order of the pattern *)
Record parts := mkparts { p_set : text; p_sy : text; p_sd : text; p_ey : text; p_ed : text; p_aux : text; p_center : text; p_sol : text; p_rel : text; p_more : text; p_suffix : text }.
Definition written (x : parts) : text :=
  p_set x ++ chars "-2_" ++ p_sy x ++ p_sd x ++ chars "-" ++ p_ey x ++ p_ed x ++ chars "_" ++ p_aux x ++ chars "_" ++ p_center x ++ chars "_" ++ p_sol x ++ chars "_" ++ p_rel x ++ p_more x ++ p_suffix x.
Definition listed (x : parts) : list text := [p_set x; p_sy x; p_sd x; p_ey x; p_ed x; p_aux x; p_center x; p_sol x; p_rel x; p_more x; p_suffix x].
(** the shape of a name of a monthly solution *)
Definition shape (x : parts) : Prop :=
  number_of 4 (p_sy x) /\ number_of 3 (p_sd x) /\ number_of 4 (p_ey x) /\ number_of 3 (p_ed x) /\ a_center (p_center x) /\
  (exists n, number_of (S n) (p_rel x)) /\ (p_suffix x = [] \/ a_suffix (p_suffix x)) /\ one_line (p_set x) /\ one_line (p_aux x) /\ one_line (p_sol x) /\ one_line (p_more x).
(** names as the centres give them: no separators inside the parts; what follows the release number does not begin with a digit; a name without
    one of the suffixes does not end like one *)
Definition released (x : parts) : Prop :=
  shape x /\ without "-"%char (p_set x) /\ without "_"%char (p_aux x) /\ without "_"%char (p_sol x) /\
  (match p_more x ++ p_suffix x with c :: _ => is_digit c = false | [] => True end) /\ (p_suffix x = [] -> forall a s, p_more x = a ++ s -> ~ a_suffix s).

(** ** the language of the pattern *)
Lemma lang_lit w g a b : lang (lit w) g a b <-> g = [] /\ a = chars w.
Proof. cbn. split; intros (-> & H); [apply eqb_same in H; auto|subst a; split; [reflexivity|apply same_eqb]]. Qed.
Lemma ors_groups ws : groups (ors (map lit ws)) = 0.
Proof. induction ws as [|w [|v ws] IH]; [reflexivity|reflexivity|]. exact IH. Qed.
Lemma lang_ors ws g a b : ws <> [] -> (lang (ors (map lit ws)) g a b <-> g = [] /\ exists w, In w ws /\ a = chars w).
Proof.
  induction ws as [|w [|v ws] IH]; intros NE; [congruence| |].
  - cbn [map ors]. rewrite lang_lit. split; [intros (-> & ->); split; [reflexivity|]; exists w; cbn; auto|intros (-> & x & [->|[]] & ->); auto].
  - change (ors (map lit (w :: v :: ws))) with (Or (lit w) (ors (map lit (v :: ws)))). cbn [lang]. rewrite ors_groups. change (groups (lit w)) with 0. cbn [blanks repeat]. split.
    + intros [(g1 & -> & L)|(g2 & -> & L)].
      * apply lang_lit in L as (-> & ->). split; [reflexivity|]. exists w. cbn. auto.
      * apply IH in L as (-> & x & I & ->); [|discriminate]. split; [reflexivity|]. exists x. split; [right; exact I|reflexivity].
    + intros (-> & x & [->|I] & ->); [left; exists []; split; [reflexivity|now apply lang_lit]|]. right. exists []. split; [reflexivity|]. apply IH; [discriminate|]. split; [reflexivity|]. eauto.
Qed.
Lemma any_line a : Forall (fun c => any c = true) a <-> one_line a.
Proof.
  unfold one_line, any. rewrite !Forall_forall. split; intros H c I; specialize (H c I).
  - intros ->. rewrite Ascii.eqb_refl in H. discriminate.
  - destruct (Ascii.eqb_spec c newline); [congruence|reflexivity].
Qed.
Lemma lang_some_digits g a b : lang some_digits g a b <-> g = [] /\ exists n, number_of (S n) a.
Proof.
  unfold some_digits, number_of. cbn [lang]. split.
  - intros (g1 & g2 & a1 & a2 & -> & -> & (-> & L & F1) & (-> & F2)). split; [reflexivity|]. exists (List.length a2). rewrite app_length, L. split; [reflexivity|]. now apply Forall_app.
  - intros (-> & n & L & F). destruct a as [|c a]; [discriminate|]. inversion F as [|? ? H F']; subst. exists [], [], [c], a. repeat split; auto.
Qed.
Lemma lang_sq x y g a b : lang (Sq x y) g a b -> exists g1 g2 a1 a2, g = g1 ++ g2 /\ a = a1 ++ a2 /\ lang x g1 a1 (a2 ++ b) /\ lang y g2 a2 b.
Proof. exact (fun H => H). Qed.
Lemma lang_group x g a b : lang (Group x) g a b -> exists g', g = a :: g' /\ lang x g' a b.
Proof. exact (fun H => H). Qed.
Lemma lang_maybe x g a b : lang (Maybe x) g a b -> lang x g a b \/ (g = blanks (groups x) /\ a = []).
Proof. exact (fun H => H). Qed.
Lemma grace_lang g m b : lang grace_pattern g m b <-> (b = [] \/ b = [newline]) /\ exists x, shape x /\ g = listed x /\ m = written x.
Proof.
  unfold grace_pattern, shape, listed, written. cbn [seqs]. split.
  - intros L. do 17 (apply lang_sq in L as (?g & ?g & ?a & ?a & -> & -> & ? & L)).
    repeat match goal with
    | H : lang (Group _) _ _ _ |- _ => apply lang_group in H as (? & -> & H)
    | H : lang (lit _) _ _ _ |- _ => apply lang_lit in H as (-> & ->)
    | H : lang (digits _) _ _ _ |- _ => cbn [lang digits] in H; destruct H as (-> & ?L & ?F)
    | H : lang (Few _) _ _ _ |- _ => cbn [lang] in H; destruct H as (-> & H); apply any_line in H
    | H : lang some_digits _ _ _ |- _ => apply lang_some_digits in H as (-> & H)
    | H : lang (ors (map lit centers)) _ _ _ |- _ => apply lang_ors in H as (-> & H); [|discriminate]
    | H : lang Eos _ _ _ |- _ => cbn [lang] in H; destruct H as (-> & -> & H)
    end.
    split; [assumption|].
    match goal with H : lang (Maybe _) _ ?q _ |- _ => assert (SX : (q = [] \/ a_suffix q)); [|assert (GX : forall s : text, True) by auto] end.
    { match goal with H : lang (Maybe _) _ _ _ |- _ => apply lang_maybe in H as [H|(_ & ->)]; [right; apply lang_group in H as (g' & _ & H); apply lang_ors in H as (_ & H); [exact H|discriminate]|now left] end. }
    match goal with H : lang (Maybe _) ?gg ?q _ |- _ => assert (GE : gg = [q]) end.
    { match goal with H : lang (Maybe _) _ _ _ |- _ => apply lang_maybe in H as [H|(-> & ->)]; [apply lang_group in H as (g' & -> & H); apply lang_ors in H as (-> & _); [reflexivity|discriminate]|reflexivity] end. }
    match goal with GE : ?gg = [?q] |- context[?a0 ++ chars "-2_" ++ ?a1 ++ ?a2 ++ chars "-" ++ ?a3 ++ ?a4 ++ chars "_" ++ ?a5 ++ chars "_" ++ ?a6 ++ chars "_" ++ ?a7 ++ chars "_" ++ ?a8 ++ ?a9 ++ ?a10 ++ []] =>
      exists (mkparts a0 a1 a2 a3 a4 a5 a6 a7 a8 a9 a10) end.
    cbn [p_set p_sy p_sd p_ey p_ed p_aux p_center p_sol p_rel p_more p_suffix]. rewrite GE, app_nil_r. unfold number_of, a_center. repeat split; auto. now rewrite app_nil_r.
  - intros (E & [p sy sd ey ed aux c f1 r f2 sx] & SH & -> & ->). cbn [p_set p_sy p_sd p_ey p_ed p_aux p_center p_sol p_rel p_more p_suffix] in *.
    destruct SH as ((L1 & F1) & (L2 & F2) & (L3 & F3) & (L4 & F4) & C & R & SX & N1 & N2 & N3 & N4).
    assert (ST : forall r1 r2 g1 g2 a1 a2 b, lang r1 g1 a1 (a2 ++ b) -> lang r2 g2 a2 b -> lang (Sq r1 r2) (g1 ++ g2) (a1 ++ a2) b) by (intros; exists g1, g2, a1, a2; auto).
    assert (GR : forall r a b, lang r [] a b -> lang (Group r) [a] a b) by (intros; exists []; auto).
    assert (LL : forall w b, lang (lit w) [] (chars w) b) by (intros; now apply lang_lit).
    assert (FW : forall a b, one_line a -> lang (Few any) [] a b) by (intros; split; [reflexivity|now apply any_line]).
    assert (DG : forall n a b, List.length a = n -> Forall (fun c => is_digit c = true) a -> lang (digits n) [] a b) by (intros; cbn; auto).
    change (_ :: _) with ([p] ++ [] ++ [sy] ++ [sd] ++ [] ++ [ey] ++ [ed] ++ [] ++ [aux] ++ [] ++ [c] ++ [] ++ [f1] ++ [] ++ [r] ++ [f2] ++ [sx] ++ []).
    rewrite <- (app_nil_r sx) at 2. repeat (apply ST); auto.
    + apply GR. apply lang_ors; [discriminate|]. auto.
    + apply GR. apply lang_some_digits. auto.
    + cbn [lang]. destruct SX as [->|SX]; [right; auto|left]. exists []. split; [reflexivity|]. apply lang_ors; [discriminate|]. auto.
    + cbn. auto.
Qed.
Lemma written_not_nil x : written x <> [].
Proof. unfold written. intros H. apply app_eq_nil in H as (_ & H). discriminate. Qed.
(** a name is accepted exactly if it holds a text of this shape at its end; the fields are those of such a text *)
Theorem C119_accepted : forall f, one_line (base_name f) -> ((exists g, parse_file f = Ok g) <-> exists before x, shape x /\ base_name f = before ++ written x).
Proof.
  intros f NL. unfold parse_file. split.
  - intros (g & H). apply last_sound in H as (a & m & b & E & L). apply grace_lang in L as (B & x & SH & _ & ->). exists a, x. split; [exact SH|]. destruct B as [->| ->]; [now rewrite app_nil_r in E|].
    exfalso. rewrite E in NL. apply Forall_app in NL as (_ & NL). apply Forall_app in NL as (_ & NL). inversion NL. congruence.
  - intros (a & x & SH & E). apply (last_complete grace_pattern (base_name f) a (written x) [] (listed x)).
    + intros g b L. apply grace_lang in L as (_ & y & _ & _ & W). symmetry in W. now apply written_not_nil in W.
    + now rewrite app_nil_r.
    + apply grace_lang. split; [now left|]. eauto.
Qed.
Theorem C119_sound : forall f g, one_line (base_name f) -> parse_file f = Ok g -> exists before x, shape x /\ base_name f = before ++ written x /\ g = listed x.
Proof.
  intros f g NL H. apply last_sound in H as (a & m & b & E & L). apply grace_lang in L as (B & x & SH & -> & ->). exists a, x. split; [exact SH|]. split; [|reflexivity]. destruct B as [->| ->]; [now rewrite app_nil_r in E|].
  exfalso. rewrite E in NL. apply Forall_app in NL as (_ & NL). apply Forall_app in NL as (_ & NL). inversion NL. congruence.
Qed.
Theorem C119_rejected : forall f e, parse_file f = Err e -> e = IndexError.
Proof. intros f e H. now apply last_error in H. Qed.
Theorem C119_dates : forall f sy sd ey ed, one_line (base_name f) -> parse_grace_file f = Ok ((sy, sd), (ey, ed)) ->
  exists before after, number_of 4 sy /\ number_of 3 sd /\ number_of 4 ey /\ number_of 3 ed /\ base_name f = before ++ chars "-2_" ++ sy ++ sd ++ chars "-" ++ ey ++ ed ++ chars "_" ++ after.
Proof.
  intros f sy sd ey ed NL H. unfold parse_grace_file in H. destruct (parse_file f) as [g|e] eqn:P; [|discriminate]. cbn [bind] in H. apply C119_sound in P as (a & x & SH & E & ->); [|exact NL]. cbn [listed] in H. injection H as <- <- <- <-.
  destruct SH as (A & B & C & D & _). eexists (a ++ p_set x), _. repeat split; try apply A; try apply B; try apply C; try apply D. rewrite E. unfold written. rewrite <- app_assoc. reflexivity.
Qed.
(** ** the fields of released names *)
Lemma few_word {A} p (a : text) w s (k : @kont A) x : Forall (fun c => p c = true) a -> (match w with c :: _ => without c a | [] => False end) ->
  k [] a (w ++ s) = Some x -> (forall t, (match w, t with c :: _, d :: _ => c <> d | _, _ => False end) -> forall d, k [] d t = None) -> run (Few p) (a ++ w ++ s) k = Some x.
Proof.
  intros F W K N. cbn [run]. apply few_ok; [exact F| |exact K]. intros a1 c a2 E. apply N. destruct w as [|d w]; [destruct W|]. intros ->. apply W. rewrite E. apply in_or_app. right. now left.
Qed.
Lemma lit_ok {A} w s (k : @kont A) : run (lit w) (chars w ++ s) k = k [] (chars w) s.
Proof. unfold lit. cbn [run]. now rewrite (word_ok Ascii.eqb (chars w) (chars w) [] s k (same_eqb _)). Qed.
Lemma lit_no {A} w s (k : @kont A) : (match chars w, s with c :: _, d :: _ => c <> d | _, _ => False end) -> run (lit w) s k = None.
Proof. unfold lit. cbn [run]. destruct (chars w) as [|c q]; [tauto|]. destruct s as [|d s]; [tauto|]. intros H. apply word_head. now apply Ascii.eqb_neq. Qed.
Lemma digits_ok {A} n (a s : text) (k : @kont A) : number_of n a -> run (digits n) (a ++ s) k = k [] a s.
Proof. intros (L & F). unfold digits. cbn [run]. now rewrite (times_ok n is_digit a [] s k L F). Qed.
Lemma some_digits_ok {A} n (a s : text) (k : @kont A) x : number_of (S n) a -> (match s with c :: _ => is_digit c = false | [] => True end) -> k [] a s = Some x -> run some_digits (a ++ s) k = Some x.
Proof.
  intros (L & F) N K. unfold some_digits. cbn [run times]. destruct a as [|c a]; [discriminate|]. cbn [app]. inversion F as [|? ? D F']; subst. rewrite D. cbn [app]. apply many_ok; [exact F'|exact N|exact K].
Qed.
Lemma sq_run {A} r1 r2 s (k : @kont A) : run (Sq r1 r2) s k = run r1 s (fun g1 t1 s1 => run r2 s1 (fun g2 t2 s2 => k (g1 ++ g2) (t1 ++ t2) s2)).
Proof. reflexivity. Qed.
Lemma group_run {A} r s (k : @kont A) : run (Group r) s k = run r s (fun g t s' => k (t :: g) t s').
Proof. reflexivity. Qed.
(** one of the words: the first that is a prefix and lets the rest match *)
Lemma ors_ok {A} ws w s (k : @kont A) x : In w ws -> (forall v g t s', In v ws -> v <> w -> chars w ++ s = chars v ++ s' -> k g t s' = None) -> k [] (chars w) s = Some x -> run (ors (map lit ws)) (chars w ++ s) k = Some x.
Proof.
  intros I N K. induction ws as [|v [|u ws] IH]; [destruct I| |].
  - destruct I as [->|[]]. cbn [map ors]. now rewrite lit_ok.
  - change (ors (map lit (v :: u :: ws))) with (Or (lit v) (ors (map lit (u :: ws)))). cbn [run]. change (groups (lit v)) with 0. rewrite (ors_groups (u :: ws)). cbn [blanks repeat].
    destruct (run (lit v) (chars w ++ s) _) as [y|] eqn:E.
    + apply run_sound in E as (g & a & b & E & L & KK). apply lang_lit in L as (-> & ->). destruct (string_dec v w) as [->|NE].
      * apply app_inv_head in E. subst b. cbn [app] in KK. exact (eq_trans (eq_sym KK) K).
      * pose proof (N v ([] ++ []) (chars v) b (or_introl eq_refl) NE E) as Z0. exact (False_rect _ (eq_ind None (fun o => match o with None => True | Some _ => False end) Logic.I _ (eq_trans (eq_sym Z0) KK))).
    + destruct I as [->|I].
      * rewrite lit_ok in E. cbn [app] in E. exfalso. pose proof (eq_trans (eq_sym E) K) as Z0. discriminate Z0.
      * apply IH; [exact I|]. intros v' g t s' I'. apply N. now right.
Qed.
Lemma maybe_run {A} r s (k : @kont A) : run (Maybe r) s k = match run r s k with Some x => Some x | None => k (blanks (groups r)) [] s end.
Proof. reflexivity. Qed.
(** the suffix at the end *)
Lemma suffix_run {A} ws (s : text) (k : @kont A) y : one_line s -> (s = [] \/ exists w, In w ws /\ s = chars w) -> ws <> [] -> (forall w, In w ws -> chars w <> []) ->
  (forall t, k [s] t [] = Some y) -> run (Sq (Maybe (Group (ors (map lit ws)))) Eos) s k = Some y.
Proof.
  intros NL SX NE NN K. rewrite sq_run, maybe_run, group_run. destruct SX as [->|(w & I & ->)].
  - destruct (run (ors (map lit ws)) [] _) as [z|] eqn:E.
    + apply run_sound in E as (g & a & b & E & L & _). symmetry in E. apply app_eq_nil in E as (-> & ->). apply lang_ors in L as (_ & w & I & E); [|exact NE]. symmetry in E. now apply NN in E.
    + cbn [groups]. rewrite ors_groups. cbn [run]. apply K.
  - rewrite <- (app_nil_r (chars w)) at 1. erewrite ors_ok; [reflexivity|exact I| |cbn [run]; apply K].
    intros v g t s' IV NV E. rewrite app_nil_r in E. cbn [run]. destruct s' as [|c [|d s']]; [|destruct (Ascii.eqb_spec c newline) as [->|]; [|reflexivity]|reflexivity].
    + rewrite app_nil_r in E. exfalso. apply NV. apply (f_equal string_of_list_ascii) in E. unfold chars in E. now rewrite !string_of_list_ascii_of_string in E.
    + exfalso. rewrite E in NL. apply Forall_app in NL as (_ & NL). inversion NL. congruence.
Qed.
Lemma suffix_none {A} ws (s : text) (k : @kont A) : one_line s -> s <> [] -> ws <> [] -> (forall w, In w ws -> s <> chars w) -> run (Sq (Maybe (Group (ors (map lit ws)))) Eos) s k = None.
Proof.
  intros NL NS NE N. destruct (run _ s k) as [y|] eqn:E; [|reflexivity]. apply run_sound in E as (g & a & b & -> & L & _). apply lang_sq in L as (g1 & g2 & a1 & a2 & -> & -> & L1 & (_ & -> & B)).
  assert (b = []). { destruct B as [->| ->]; [reflexivity|]. exfalso. apply Forall_app in NL as (_ & NL). inversion NL. congruence. } subst b. rewrite !app_nil_r in *.
  apply lang_maybe in L1 as [L1|(_ & ->)]; [|now contradiction NS]. apply lang_group in L1 as (g' & _ & L1). apply lang_ors in L1 as (_ & w & I & ->); [|exact NE]. now contradiction (N w I).
Qed.
(** the centres: only the right word is followed by a bar *)
Lemma center_ok {A} ws (w s : text) (k : @kont A) x : (exists v, In v ws /\ w = chars v) -> (forall v, In v ws -> In v centers) ->
  (forall g t s', (match s' with "_"%char :: _ => False | _ => True end) -> k g t s' = None) -> k [] w (chars "_" ++ s) = Some x -> run (ors (map lit ws)) (w ++ chars "_" ++ s) k = Some x.
Proof.
  intros (v & I & ->) SUB N K. apply ors_ok; [exact I| |exact K]. intros u g t s' IU NE E. apply N. apply SUB in I. apply SUB in IU. clear - I IU NE E.
  destruct s' as [|c s']; [exact Logic.I|]. destruct (Ascii.eqb_spec c "_"%char) as [->|NC]; [|destruct c as [[] [] [] [] [] [] [] []]; try exact Logic.I; congruence]. exfalso.
  cbn [In centers] in I, IU. repeat match goal with H : _ \/ _ |- _ => destruct H | H : False |- _ => destruct H end; subst; try (now apply NE); discriminate E.
Qed.
Definition prefix_of (x : parts) : text := p_set x ++ chars "-2_" ++ p_sy x ++ p_sd x ++ chars "-" ++ p_ey x ++ p_ed x ++ chars "_" ++ p_aux x ++ chars "_" ++ p_center x ++ chars "_" ++ p_sol x ++ chars "_".
Definition prefix_pattern (cs : list string) (T : rx) : rx :=
  seqs [Group (Few any); lit "-2_"; Group (digits 4); Group (digits 3); lit "-"; Group (digits 4); Group (digits 3); lit "_";
        Group (Few any); lit "_"; Group (ors (map lit cs)); lit "_"; Group (Few any); lit "_"; T].
Lemma prefix_run cs T x s g r : (forall v, In v cs <-> In v centers) -> released x -> (forall (k : @kont (list text * text)) y, (forall t, k g t r = Some y) -> run T s k = Some y) ->
  match_at (prefix_pattern cs T) (p_set x ++ chars "-2_" ++ p_sy x ++ p_sd x ++ chars "-" ++ p_ey x ++ p_ed x ++ chars "_" ++ p_aux x ++ chars "_" ++ p_center x ++ chars "_" ++ p_sol x ++ chars "_" ++ s)
  = Some ([p_set x; p_sy x; p_sd x; p_ey x; p_ed x; p_aux x; p_center x; p_sol x] ++ g, r).
Proof.
  intros CS ((D1 & D2 & D3 & D4 & (c & IC & EC) & _ & _ & N1 & N2 & N3 & _) & W1 & W2 & W3 & _) HT. unfold match_at, prefix_pattern. cbn [seqs].
  apply any_line in N1. apply any_line in N2. apply any_line in N3.
  rewrite sq_run, group_run. apply (few_word any _ (chars "-2_")); [exact N1|exact W1| |intros t Ht d; rewrite sq_run; now apply lit_no].
  rewrite sq_run, lit_ok. rewrite sq_run, group_run, (digits_ok 4) by exact D1. rewrite sq_run, group_run, (digits_ok 3) by exact D2.
  rewrite sq_run, lit_ok. rewrite sq_run, group_run, (digits_ok 4) by exact D3. rewrite sq_run, group_run, (digits_ok 3) by exact D4.
  rewrite sq_run, lit_ok. rewrite sq_run, group_run. apply (few_word any _ (chars "_")); [exact N2|exact W2| |intros t Ht d; rewrite sq_run; now apply lit_no].
  rewrite sq_run, lit_ok. rewrite sq_run, group_run. apply center_ok; [exists c; split; [now apply CS|exact EC]|intros v; apply CS|intros g0 t s' H; rewrite sq_run|].
  { destruct s' as [|d s']; [reflexivity|]. apply lit_no. cbn. intros <-. exact H. }
  rewrite sq_run, lit_ok. rewrite sq_run, group_run. apply (few_word any _ (chars "_")); [exact N3|exact W3| |intros t Ht d; rewrite sq_run; now apply lit_no].
  rewrite sq_run, lit_ok. apply HT. intros t. reflexivity.
Qed.
(** what remains of a name after the release number *)
Lemma few_run {A} p s (k : @kont A) : run (Few p) s k = few p [] s k.
Proof. reflexivity. Qed.
Lemma end_run ws f sx (k : @kont (list text * text)) y : ws <> [] -> (forall w, In w ws -> chars w <> []) -> one_line f -> one_line sx -> (sx = [] \/ exists w, In w ws /\ sx = chars w) ->
  (forall a b, f = a ++ b -> b <> [] -> forall w, In w ws -> b ++ sx <> chars w) -> (forall t, k [f; sx] t [] = Some y) -> run (seqs [Group (Few any); Maybe (Group (ors (map lit ws))); Eos]) (f ++ sx) k = Some y.
Proof.
  intros NE NN N1 N2 SX NS K. cbn [seqs]. rewrite sq_run, group_run, few_run. apply few_ok; [now apply any_line| |].
  - intros a1 c a2 E. cbv beta. apply suffix_none; [|discriminate|exact NE|].
    + rewrite E in N1. apply Forall_app in N1 as (_ & N1). inversion N1; subst. constructor; [assumption|]. now apply Forall_app.
    + intros w I. apply (NS a1 (c :: a2) E); [discriminate|exact I].
  - cbv beta. apply suffix_run; [exact N2|exact SX|exact NE|exact NN|]. intros t. apply K.
Qed.
Lemma suffix_facts s : a_suffix s -> one_line s /\ s <> [].
Proof. intros (w & I & ->). cbn in I. repeat destruct I as [<-|I]; try destruct I; (split; [repeat constructor; discriminate|discriminate]). Qed.
(** a longer text never ends like a suffix that is one *)
Lemma suffix_apart s t b : a_suffix s -> a_suffix t -> b ++ s = t -> b = [].
Proof.
  intros (w & I & ->) (v & J & ->) E. cbn in I, J. repeat match goal with H : _ \/ _ |- _ => destruct H | H : False |- _ => destruct H end; subst w v; cbn in E;
    do 5 (destruct b as [|?c b]; [try reflexivity; try discriminate E|try (injection E as -> E); try discriminate E]); cbn in E; try discriminate E; try (destruct b; discriminate E).
Qed.
(** the fields of a released name, in any directory *)
Theorem C119_fields : forall f x, released x -> base_name f = written x -> parse_file f = Ok (listed x).
Proof.
  intros f x R E. unfold parse_file. rewrite E. pose proof R as ((D1 & D2 & D3 & D4 & C & (n & RN) & SX & N1 & N2 & N3 & N4) & W1 & W2 & W3 & ND & NS).
  assert (SXL : one_line (p_suffix x)) by (destruct SX as [->|SX]; [constructor|now apply suffix_facts]).
  apply (last_first grace_pattern _ _ []).
  - change grace_pattern with (prefix_pattern centers (seqs [Group some_digits; Group (Few any); Maybe (Group (ors (map lit suffixes))); Eos])).
    apply (prefix_run centers _ x (p_rel x ++ p_more x ++ p_suffix x) [p_rel x; p_more x; p_suffix x] []); [reflexivity|exact R|].
    intros k y K. cbn [seqs]. rewrite sq_run, group_run. apply (some_digits_ok n); [exact RN|exact ND|]. cbv beta.
    apply (end_run suffixes); [discriminate|intros w I; cbn in I; repeat destruct I as [<-|I]; try destruct I; discriminate|exact N4|exact SXL|exact SX| |intros t; apply K].
    intros a b EB NB w I EW. destruct SX as [SX|SX].
    + apply (NS SX a b EB). exists w. split; [exact I|]. now rewrite SX, app_nil_r in EW.
    + apply NB. apply (suffix_apart (p_suffix x) (chars w) b SX); [exists w; auto|exact EW].
  - intros a b H. symmetry in H. apply app_eq_nil in H as (-> & ->). reflexivity.
Qed.
Print Assumptions C119_fields.
Theorem C119_period : forall f x, released x -> base_name f = written x -> parse_grace_file f = Ok ((p_sy x, p_sd x), (p_ey x, p_ed x)).
Proof. intros f x R E. unfold parse_grace_file. rewrite (C119_fields f x R E). reflexivity. Qed.
