(** C129 from_cpt (model: CptModel.v). *)
From Coq Require Import Reals Lra Lia String Ascii ZifyBool ZifyNat.
From Verif Require Import Base TsModel CmrModel PropSlr PropSmooth CptModel.
Close Scope Z_scope.
Close Scope string_scope.
Open Scope R_scope.

(** ** Specification *)
(** the colour of a hue h (in turns), a saturation and a value: the textbook formula, channel by channel *)
Definition around (x : R) : R := x - 6 * IZR (Int_part (x / 6)).
Definition hsv_channel (h s v n : R) : R := let k := around (n + 6 * h) in v - v * s * Rmax 0 (Rmin (Rmin k (4 - k)) 1).
Definition hsv_colour (h s v : R) : rgb := (hsv_channel h s v 5, hsv_channel h s v 3, hsv_channel h s v 1).

(** a slice of a colour table: from x1 with colour c1 to x2 with colour c2, as written in the file *)
Record slice := mkslice { x1 : R; c1 : rgb; x2 : R; c2 : rgb }.
Definition written (s : slice) : list R := let '(r1, g1, b1) := c1 s in let '(r2, g2, b2) := c2 s in [x1 s; r1; g1; b1; x2 s; r2; g2; b2].

(** words alike up to the case of letters *)
Definition alike (a b : string) : Prop := lower a = lower b.
(** the line has the words COLOR_MODEL and, behind it, HSV or RGB, in any case; w is the last of these as it is written; [c] is the text behind it *)
Definition has_model (l w c : string) : Prop := exists a k b, l = String.append a (String.append k (String.append b (String.append w c))) /\ alike k "COLOR_MODEL" /\ (alike w "HSV" \/ alike w "RGB").
Definition last_word (l w : string) : Prop := exists c, has_model l w c /\ forall w' c', has_model l w' c' -> (String.length c <= String.length c')%nat.
(** the four kinds of lines *)
Definition says_model (l w : string) : Prop := last_word l w.
Definition flag_letter (c : ascii) : Prop := In c ["B"; "F"; "N"; "b"; "f"; "n"]%char.
Definition flag_line (l : string) (k : ascii) : Prop := (forall w c, ~ has_model l w c) /\ flag_letter k /\ exists r, l = String k r.
Definition comment_line (l : string) : Prop := (forall w c, ~ has_model l w c) /\ In "#"%char (list_ascii_of_string l) /\ forall c r, l = String c r -> ~ flag_letter c.
Definition colour_line (l : string) : Prop := (forall w c, ~ has_model l w c) /\ ~ In "#"%char (list_ascii_of_string l) /\ forall c r, l = String c r -> ~ flag_letter c.

(** the slices of a file: its colour lines, in order, each with eight numbers *)
Inductive slices_of (findall : string -> list R) : list string -> list slice -> Prop :=
| no_line : slices_of findall [] []
| other_line l ls ss : ~ colour_line l -> slices_of findall ls ss -> slices_of findall (l :: ls) ss
| slice_line l ls s ss : colour_line l -> findall l = written s -> slices_of findall ls ss -> slices_of findall (l :: ls) (s :: ss).
(** the colour model of a file: the word of its last colour model line, RGB without one *)
Definition model_of (ls : list string) (w : string) : Prop :=
  (exists a l b, ls = (a ++ l :: b)%list /\ says_model l w /\ forall l' w', In l' b -> ~ says_model l' w')
  \/ (w = "RGB"%string /\ forall l' w', In l' ls -> ~ says_model l' w').
(** the numbers of the last line of a flag *)
Definition flag_of (findall : string -> list R) (ls : list string) (k : ascii) (v : option (list R)) : Prop :=
  (exists a l b, ls = (a ++ l :: b)%list /\ flag_line l k /\ v = Some (findall l) /\ forall l', In l' b -> ~ flag_line l' k)
  \/ (v = None /\ forall l', In l' ls -> ~ flag_line l' k).
(** the colour that is drawn for a colour of the file *)
Definition drawn (w : string) (c : rgb) : rgb := let '(r, g, b) := c in if String.eqb w "HSV" then hsv_colour (r / 360) g b else (r / 255, g / 255, b / 255).
(** the nodes of a colour table: the starts of the slices, then the end of the last *)
Definition nodes (s : slice) (ss : list slice) : list (R * rgb) := (map (fun s => (x1 s, c1 s)) (s :: ss) ++ [(x2 (last ss s), c2 (last ss s))])%list.

(** ** Proofs: colours *)
Lemma ip x z : IZR z <= x < IZR z + 1 -> Int_part x = z.
Proof. intros [A B]. unfold Int_part. rewrite <- (tech_up x (z + 1)); [lia| |]; rewrite plus_IZR; lra. Qed.
Lemma ip_bounds x : IZR (Int_part x) <= x < IZR (Int_part x) + 1.
Proof. destruct (base_Int_part x). lra. Qed.
Lemma around_at x z : 6 * IZR z <= x < 6 * IZR z + 6 -> around x = x - 6 * IZR z.
Proof. intros H. unfold around. rewrite (@ip (x / 6) z) by lra. reflexivity. Qed.
Ltac mm := unfold Rmax, Rmin; repeat match goal with |- context [Rle_dec ?a ?b] => lazymatch constr:((a, b)) with context [Rle_dec _ _] => fail | _ => destruct (Rle_dec a b) end end; try lra.
Ltac fld := first [lra | ring | (unfold Rminus; ring)].
Lemma hsv_ok h s v : 0 <= h <= 1 -> hsv_to_rgb h s v = hsv_colour h s v.
Proof.
  intros H. unfold hsv_to_rgb, hsv_colour. destruct (Req_EM_T s 0) as [->|Ns].
  - unfold hsv_channel. cbv zeta. rewrite !Rmult_0_r, !Rmult_0_l, !Rminus_0_r. reflexivity.
  - unfold trunc. destruct (Rle_dec 0 (h * 6)) as [_|X]; [|lra].
    pose proof (ip_bounds (h * 6)) as B. set (i := Int_part (h * 6)) in *. clearbody i.
    assert (I0 : (0 <= i)%Z) by (apply Z.lt_succ_r, lt_IZR; rewrite succ_IZR; lra).
    assert (I1 : (i <= 6)%Z) by (apply le_IZR; lra).
    assert (C : (i = 0 \/ i = 1 \/ i = 2 \/ i = 3 \/ i = 4 \/ i = 5 \/ i = 6)%Z) by lia.
    destruct C as [E|[E|[E|[E|[E|[E|E]]]]]]; rewrite E in *; clear E; cbv zeta; cbn [Z.modulo Z.div_eucl Z.pos_div_eucl Z.eqb Pos.eqb snd Z.leb Z.ltb Z.compare Pos.compare Pos.compare_cont Z.mul Pos.mul Z.add Pos.add Z.sub Z.opp Z.pos_sub Pos.pred_double fst];
    (match goal with |- context [Z.modulo ?a ?b] => let t := eval compute in (Z.modulo a b) in change (Z.modulo a b) with t | _ => idtac end);
    cbn [Z.eqb Pos.eqb]; unfold hsv_channel; cbv zeta;
    [ rewrite (@around_at (5 + 6 * h) 0), (@around_at (3 + 6 * h) 0), (@around_at (1 + 6 * h) 0) by lra
    | rewrite (@around_at (5 + 6 * h) 1), (@around_at (3 + 6 * h) 0), (@around_at (1 + 6 * h) 0) by lra
    | rewrite (@around_at (5 + 6 * h) 1), (@around_at (3 + 6 * h) 0), (@around_at (1 + 6 * h) 0) by lra
    | rewrite (@around_at (5 + 6 * h) 1), (@around_at (3 + 6 * h) 1), (@around_at (1 + 6 * h) 0) by lra
    | rewrite (@around_at (5 + 6 * h) 1), (@around_at (3 + 6 * h) 1), (@around_at (1 + 6 * h) 0) by lra
    | rewrite (@around_at (5 + 6 * h) 1), (@around_at (3 + 6 * h) 1), (@around_at (1 + 6 * h) 1) by lra
    | rewrite (@around_at (5 + 6 * h) 1), (@around_at (3 + 6 * h) 1), (@around_at (1 + 6 * h) 1) by lra ];
    apply f_equal2; [apply f_equal2| | apply f_equal2| | apply f_equal2| | apply f_equal2| | apply f_equal2| | apply f_equal2| | apply f_equal2|];
    match goal with |- _ = v - v * s * ?M =>
      first [ replace M with 0 by (mm); ring | replace M with 1 by (mm); ring
            | match goal with |- context [h * 6 - ?z] => first [replace M with (h * 6 - z) by (mm); ring | replace M with (1 - (h * 6 - z)) by (mm); ring] end ] end.
Qed.

(** ** Proofs: words *)
Definition word (w : string) : Prop := alike w "HSV" \/ alike w "RGB".
Lemma sapp_assoc (a b c : string) : String.append (String.append a b) c = String.append a (String.append b c).
Proof. induction a as [|x a IH]; [reflexivity|]. cbn [String.append]. rewrite IH. reflexivity. Qed.
Lemma lower_app a b : lower (String.append a b) = String.append (lower a) (lower b).
Proof. induction a as [|x a IH]; [reflexivity|]. cbn [String.append lower]. rewrite IH. reflexivity. Qed.
Lemma lower_len a : String.length (lower a) = String.length a.
Proof. induction a as [|x a IH]; [reflexivity|]. cbn [String.length lower]. rewrite IH. reflexivity. Qed.
Lemma slen_app a b : String.length (String.append a b) = (String.length a + String.length b)%nat.
Proof. induction a as [|x a IH]; [reflexivity|]. cbn [String.append String.length]. rewrite IH. reflexivity. Qed.
Lemma sapp_inj a b c d : String.length a = String.length b -> String.append a c = String.append b d -> a = b /\ c = d.
Proof.
  revert b. induction a as [|x a IH]; intros [|y b] L E; try discriminate L; [split; [reflexivity|exact E]|].
  cbn [String.append] in E. injection E as -> E. destruct (IH b) as [-> ->]; [injection L; auto|exact E|]. split; reflexivity.
Qed.
Lemma prefix_ok p s : prefix p s = true <-> exists r, s = String.append p r.
Proof.
  revert s. induction p as [|c p IH]; intros s; cbn [prefix String.append]; [split; [eauto|destruct s; reflexivity]|].
  destruct s as [|d s]; [split; [discriminate|intros [r E]; discriminate]|]. change (prefix (String c p) (String d s)) with (if ascii_dec c d then prefix p s else false). destruct (ascii_dec c d) as [->|N].
  - rewrite IH. split; intros [r E]; exists r; [rewrite E; reflexivity|injection E; auto].
  - split; [discriminate|]. intros [r E]. injection E as E _. congruence.
Qed.
(** the beginning of s is the word p but for the case of letters *)
Lemma starts_ok p s : prefix p (lower s) = true <-> exists k r, s = String.append k r /\ lower k = p.
Proof.
  rewrite prefix_ok. split.
  - intros [r E]. revert s r E. induction p as [|c p IH]; intros s r E; [exists ""%string, s; split; reflexivity|].
    destruct s as [|d s]; [discriminate E|]. cbn [lower String.append] in E. injection E as E1 E2. destruct (IH s r E2) as (k & r' & -> & E'). exists (String d k), r'. split; [reflexivity|]. cbn [lower]. rewrite E1, E'. reflexivity.
  - intros (k & r & -> & <-). rewrite lower_app. eauto.
Qed.
Lemma word_len w : word w -> String.length w = 3%nat.
Proof. intros [E|E]; unfold alike in E; apply (f_equal String.length) in E; rewrite !lower_len in E; exact E. Qed.
Lemma here_ok s : model_here s = true <-> exists w r, s = String.append w r /\ word w.
Proof.
  unfold model_here. rewrite orb_true_iff, !starts_ok. split.
  - intros [(k & r & E & L)|(k & r & E & L)]; exists k, r; (split; [exact E|]); [left|right]; exact L.
  - intros (w & r & E & [L|L]); [left|right]; exists w, r; split; auto.
Qed.
Lemma take_app w r n : n = String.length w -> substring 0 n (String.append w r) = w.
Proof. intros ->. induction w as [|c w IH]; [destruct r; reflexivity|]. cbn [String.append String.length substring]. rewrite IH. reflexivity. Qed.
Lemma drop_app k r n : n = String.length k -> drop n (String.append k r) = r.
Proof. intros ->. induction k as [|c k IH]; [destruct r; reflexivity|]. cbn [String.append String.length drop]. exact IH. Qed.
Lemma last_ok s w : last_model s = Some w -> exists b c, s = String.append b (String.append w c) /\ word w /\ forall b' w' c', s = String.append b' (String.append w' c') -> word w' -> (String.length b' <= String.length b)%nat.
Proof.
  revert w. induction s as [|x s IH]; intros w; [discriminate|]. cbn [last_model]. destruct (last_model s) as [v|] eqn:E.
  - intros [= ->]. destruct (IH w eq_refl) as (b & c & -> & W & Mx). exists (String x b), c. split; [reflexivity|]. split; [exact W|].
    intros [|y b'] w' c' E' W'; cbn [String.length]; [lia|]. injection E' as _ E'. specialize (Mx _ _ _ E' W'). lia.
  - destruct (model_here (String x s)) eqn:H; [|discriminate]. intros [= <-]. apply here_ok in H. destruct H as (w & r & Es & W). exists ""%string, r.
    assert (Q : substring 0 3 (String x s) = w) by (rewrite Es; apply take_app; symmetry; apply word_len, W). cbn [substring] in Q. rewrite Q. split; [exact Es|]. split; [exact W|].
    intros [|y b'] w' c' E' W'; cbn [String.length]; [lia|]. exfalso. injection E' as _ E'. clear IH Q Es. revert s E E'. induction b' as [|z b' IHb]; intros s E E'.
    + destruct s as [|y' s]; [cbn in E'; destruct w'; [apply word_len in W'; discriminate W'|discriminate E']|]. cbn [last_model] in E. destruct (last_model s); [discriminate|]. destruct (model_here (String y' s)) eqn:H; [discriminate|].
      assert (T : model_here (String y' s) = true) by (apply here_ok; exists w', c'; auto). congruence.
    + destruct s as [|y' s]; [discriminate E'|]. injection E' as _ E'. cbn [last_model] in E. destruct (last_model s) eqn:E2; [discriminate|]. exact (IHb s E2 E').
Qed.
Lemma last_some s b w c : s = String.append b (String.append w c) -> word w -> last_model s <> None.
Proof.
  revert s. induction b as [|x b IH]; intros s E W.
  - destruct s as [|y s]; [destruct w; [apply word_len in W; discriminate W|discriminate E]|]. cbn [last_model]. destruct (last_model s); [discriminate|].
    assert (T : model_here (String y s) = true) by (apply here_ok; exists w, c; auto). rewrite T. discriminate.
  - subst s. cbn [String.append last_model]. specialize (IH _ eq_refl W). destruct (last_model _); [discriminate|destruct IH; reflexivity].
Qed.
Lemma key_len k : alike k "COLOR_MODEL" -> String.length k = 11%nat.
Proof. intros E. apply (f_equal String.length) in E. rewrite !lower_len in E. exact E. Qed.
Lemma model_some l w : color_model l = Some w -> last_word l w.
Proof.
  induction l as [|x l IH]; [discriminate|]. intros H. cbn [color_model] in H.
  destruct (if prefix "color_model" (lower (String x l)) then last_model (drop 11 (String x l)) else None) as [v|] eqn:E.
  - injection H as ->. destruct (prefix _ _) eqn:P; [|discriminate]. apply starts_ok in P. destruct P as (k & r & Ek & Lk).
    assert (AK : alike k "COLOR_MODEL") by exact Lk.
    rewrite Ek, drop_app in E by (symmetry; apply key_len, AK). destruct (last_ok _ _ E) as (b & c & -> & W & Mx). exists c. split.
    + exists ""%string, k, b. split; [exact Ek|]. split; [exact AK|exact W].
    + intros w' c' (a' & k' & b' & E' & AK' & W'). rewrite Ek in E'. pose proof (key_len _ AK) as Lk1. pose proof (key_len _ AK') as Lk2. pose proof (word_len _ W) as Lw1. pose proof (word_len _ W') as Lw2.
      (* the text in front of w' is at least as long as k *)
      assert (SP : exists u, String.append a' (String.append k' b') = String.append k u /\ String.append b (String.append w c) = String.append u (String.append w' c')).
      { assert (E2 : String.append k (String.append b (String.append w c)) = String.append (String.append a' (String.append k' b')) (String.append w' c')) by (rewrite E', !sapp_assoc; reflexivity).
        assert (Le : (String.length k <= String.length (String.append a' (String.append k' b')))%nat) by (rewrite !slen_app; lia).
        revert E2 Le. generalize (String.append a' (String.append k' b')). generalize (String.append b (String.append w c)). generalize (String.append w' c'). clear. induction k as [|y k IH]; intros p q s E2 Le; [exists s; auto|].
        destruct s as [|z s]; [cbn in Le; lia|]. cbn [String.append] in E2. injection E2 as <- E2. destruct (IH p q s E2) as (u & U1 & U2); [cbn [String.length] in Le; lia|]. exists u. split; [cbn [String.append]; rewrite U1; reflexivity|exact U2]. }
      destruct SP as (u & _ & SU). pose proof (Mx _ _ _ SU W') as Mu. apply (f_equal String.length) in SU. rewrite !slen_app in SU. lia.
  - destruct (IH H) as (c & (a & k & b & -> & AK & W) & Mx). exists c. split.
    + exists (String x a), k, b. split; [reflexivity|]. auto.
    + intros w' c' (a' & k' & b' & E' & AK' & W'). destruct a' as [|y a'].
      * exfalso. cbn [String.append] in E'. assert (P : prefix "color_model" (lower (String x (String.append a (String.append k (String.append b (String.append w c)))))) = true) by (apply starts_ok; exists k', (String.append b' (String.append w' c')); split; [exact E'|exact AK']).
        rewrite P, E', drop_app in E by (symmetry; apply key_len, AK'). exact (last_some _ _ _ _ eq_refl W' E).
      * injection E' as _ E'. apply (Mx w' c'). exists a', k', b'. auto.
Qed.
Lemma model_has l w c : has_model l w c -> color_model l <> None.
Proof.
  intros (a & k & b & -> & AK & W). induction a as [|x a IH].
  - cbn [String.append]. destruct k as [|x k]; [apply key_len in AK; discriminate AK|]. cbn [String.append color_model].
    assert (P : prefix "color_model" (lower (String x (String.append k (String.append b (String.append w c))))) = true) by (apply starts_ok; exists (String x k), (String.append b (String.append w c)); split; [reflexivity|exact AK]).
    assert (D : drop 11 (String x (String.append k (String.append b (String.append w c)))) = String.append b (String.append w c)) by (apply (drop_app (String x k)); symmetry; apply key_len, AK).
    rewrite P, D. destruct (last_model (String.append b (String.append w c))) eqn:E; [discriminate|]. destruct (last_some _ _ _ _ eq_refl W E).
  - cbn [String.append color_model]. match goal with |- context [if ?t then ?u else ?v] => destruct (if t then u else v) end; [discriminate|exact IH].
Qed.
Lemma last_unique l w w' : last_word l w -> last_word l w' -> w = w'.
Proof.
  intros (c & H & M) (c' & H' & M'). pose proof (M _ _ H') as L1. pose proof (M' _ _ H) as L2. destruct H as (a & k & b & E & _ & W). destruct H' as (a' & k' & b' & E' & _ & W').
  rewrite E in E'. pose proof (word_len _ W). pose proof (word_len _ W'). pose proof (f_equal String.length E') as LE. rewrite !slen_app in LE.
  assert (Q : String.append (String.append a (String.append k b)) (String.append w c) = String.append (String.append a' (String.append k' b')) (String.append w' c')) by (rewrite !sapp_assoc; exact E').
  apply sapp_inj in Q; [|rewrite !slen_app; lia]. destruct Q as [_ Q]. apply sapp_inj in Q; [|lia]. tauto.
Qed.
Lemma colour_model_line l : (forall w, color_model l = Some w <-> last_word l w) /\ (color_model l = None <-> forall w c, ~ has_model l w c).
Proof.
  assert (P : forall w, color_model l = Some w <-> last_word l w).
  { intros w. split; [apply model_some|]. intros H. destruct (color_model l) as [v|] eqn:E; [apply model_some in E; f_equal; exact (last_unique _ _ _ E H)|]. destruct H as (c & H & _). destruct (model_has _ _ _ H E). }
  split; [exact P|]. split.
  - intros E w c H. exact (model_has _ _ _ H E).
  - intros N. destruct (color_model l) as [v|] eqn:E; [|reflexivity]. apply model_some in E. destruct E as (c & H & _). destruct (N _ _ H).
Qed.
Lemma says_ok l w : says_model l w <-> color_model l = Some w.
Proof. symmetry. apply colour_model_line. Qed.
Lemma none_ok l : (forall w c, ~ has_model l w c) <-> color_model l = None.
Proof. symmetry. apply colour_model_line. Qed.

(** ** Proofs: lines *)
Lemma bfn_ok l k : bfn l = Some k <-> In k ["B"; "F"; "N"; "b"; "f"; "n"]%char /\ exists r, l = String k r.
Proof.
  destruct l as [|c r]; cbn [bfn].
  - split; [discriminate|]. intros (_ & r & E). discriminate.
  - assert (Q : existsb (Ascii.eqb (lower_ascii c)) ["b"; "f"; "n"]%char = true <-> In c ["B"; "F"; "N"; "b"; "f"; "n"]%char).
    { destruct c as [[] [] [] [] [] [] [] []]; vm_compute; split; intros H; try reflexivity; try discriminate; try tauto; repeat (destruct H as [H|H]; try discriminate H); try contradiction. }
    destruct (existsb _ _); split.
    + intros [= <-]. split; [apply Q; reflexivity|eauto].
    + intros (_ & r' & [= <- <-]). reflexivity.
    + discriminate.
    + intros (H & r' & [= <- <-]). apply Q in H. discriminate.
Qed.
Lemma bfn_none l : bfn l = None <-> forall c r, l = String c r -> ~ In c ["B"; "F"; "N"; "b"; "f"; "n"]%char.
Proof.
  split.
  - intros E c r -> H. assert (bfn (String c r) = Some c) by (apply bfn_ok; eauto). congruence.
  - intros H. destruct (bfn l) as [k|] eqn:E; [|reflexivity]. apply bfn_ok in E. destruct E as (I & r & ->). destruct (H k r eq_refl I).
Qed.
Lemma commented_ok l : commented l = true <-> In "#"%char (list_ascii_of_string l).
Proof. unfold commented. rewrite existsb_exists. split; [intros (c & I & E); apply Ascii.eqb_eq in E; subst; exact I|intros I; exists "#"%char; split; [exact I|apply Ascii.eqb_refl]]. Qed.
Lemma colour_ok l : colour_line l <-> color_model l = None /\ bfn l = None /\ commented l = false.
Proof. unfold colour_line. rewrite none_ok, bfn_none, <- commented_ok, not_true_iff_false. unfold flag_letter. tauto. Qed.
Lemma flag_ok l k : flag_line l k <-> color_model l = None /\ bfn l = Some k.
Proof. unfold flag_line. rewrite none_ok, bfn_ok. unfold flag_letter. tauto. Qed.

Definition model_from (d : string) (ls : list string) (w : string) : Prop :=
  (exists a l b, ls = (a ++ l :: b)%list /\ says_model l w /\ forall l' w', In l' b -> ~ says_model l' w')
  \/ (w = d /\ forall l' w', In l' ls -> ~ says_model l' w').
Lemma model_step d l ls w : model_from d (l :: ls) w -> model_from (match color_model l with Some v => v | None => d end) ls w.
Proof.
  intros [(a & l' & b & E & Hl & N)|[-> N]].
  - destruct a as [|x a]; injection E as -> ->.
    + right. apply says_ok in Hl. rewrite Hl. split; [reflexivity|exact N].
    + left. exists a, l', b. auto.
  - right. destruct (color_model l) as [v|] eqn:E; [apply says_ok in E; destruct (N l v (or_introl eq_refl) E)|]. split; [reflexivity|]. intros l' w' I. apply N. right. exact I.
Qed.
Definition flag_from (f : string -> list R) (d : option (list R)) (ls : list string) (k : ascii) (v : option (list R)) : Prop :=
  (exists a l b, ls = (a ++ l :: b)%list /\ flag_line l k /\ v = Some (f l) /\ forall l', In l' b -> ~ flag_line l' k)
  \/ (v = d /\ forall l', In l' ls -> ~ flag_line l' k).
Definition on_flag (l : string) (k : ascii) : bool := match color_model l, bfn l with None, Some c => Ascii.eqb c k | _, _ => false end.
Lemma on_flag_ok l k : on_flag l k = true <-> flag_line l k.
Proof.
  rewrite flag_ok. unfold on_flag. destruct (color_model l); [split; [discriminate|intros [E _]; discriminate]|].
  destruct (bfn l) as [c|]; [|split; [discriminate|intros [_ E]; discriminate]]. split; [intros E; apply Ascii.eqb_eq in E; subst; auto|intros [_ [= ->]]; apply Ascii.eqb_refl].
Qed.
Lemma flag_step f d l ls k v : flag_from f d (l :: ls) k v -> flag_from f (if on_flag l k then Some (f l) else d) ls k v.
Proof.
  intros [(a & l' & b & E & Hl & -> & N)|[-> N]].
  - destruct a as [|x a]; injection E as -> ->.
    + right. apply on_flag_ok in Hl. rewrite Hl. split; [reflexivity|exact N].
    + left. exists a, l', b. auto.
  - right. destruct (on_flag l k) eqn:E; [apply on_flag_ok in E; destruct (N l (or_introl eq_refl) E)|]. split; [reflexivity|]. intros l' I. apply N. right. exact I.
Qed.
Definition flag_in (c : cpt) (k : ascii) : option (list R) := option_map snd (find (fun f => Ascii.eqb (fst f) k) (c_flags c)).
Definition end_from (d : option (R * rgb)) (ss : list slice) : option (R * rgb) := match ss with [] => d | s :: r => Some (x2 (last r s), c2 (last r s)) end.
Lemma end_step d s ss : end_from (Some (x2 s, c2 s)) ss = end_from d (s :: ss).
Proof. destruct ss as [|s' r]; [reflexivity|]. cbn [end_from]. change (last (s' :: r) s) with (last (s' :: r) s). assert (Q : last (s' :: r) s = last r s') by (clear; revert s'; induction r as [|y r IH]; intros s'; [reflexivity|]; cbn [last] in *; destruct r; [reflexivity|]; exact (IH s')). rewrite Q. reflexivity. Qed.
Lemma line_ok f c l :
  color_model l <> None \/ bfn l <> None \/ commented l = true ->
  exists c', cpt_line f c l = Ok c' /\ c_rows c' = c_rows c /\ c_end c' = c_end c /\ c_model c' = match color_model l with Some v => v | None => c_model c end /\ forall k, flag_in c' k = if on_flag l k then Some (f l) else flag_in c k.
Proof.
  intros H. unfold cpt_line, on_flag. destruct (color_model l) as [w|]; [eexists; split; [reflexivity|cbn [c_rows c_end c_model]; auto]|].
  destruct (bfn l) as [k|]; [|destruct (commented l); [eexists; split; [reflexivity|auto]|destruct H as [H|[H|H]]; try discriminate H; destruct (H eq_refl)]].
  eexists; split; [reflexivity|]. cbn [c_rows c_end c_model]. repeat (split; [reflexivity|]). intros k'. unfold flag_in. cbn [c_flags find fst]. destruct (Ascii.eqb k k'); reflexivity.
Qed.
Lemma lines_ok f ls ss : slices_of f ls ss -> forall c, exists c', cpt_lines f c ls = Ok c' /\ c_rows c' = (c_rows c ++ map (fun s => (x1 s, c1 s)) ss)%list /\ c_end c' = end_from (c_end c) ss
  /\ (forall w, model_from (c_model c) ls w -> c_model c' = w) /\ (forall k v, flag_from f (flag_in c k) ls k v -> flag_in c' k = v).
Proof.
  induction 1 as [|l ls ss NC _ IH|l ls s ss HC E _ IH]; intros c.
  - exists c. cbn [cpt_lines map]. rewrite app_nil_r. split; [reflexivity|]. split; [reflexivity|]. split; [reflexivity|].
    split; [intros w [(a & l & b & E & _)|[-> _]]|intros k v [(a & l & b & E & _)|[-> _]]]; try reflexivity; destruct a; discriminate E.
  - destruct (@line_ok f c l) as (c1 & E1 & R1 & N1 & M1 & F1).
    { destruct (color_model l) eqn:E1; [left; discriminate|]. destruct (bfn l) eqn:E2; [right; left; discriminate|]. right. right. destruct (commented l) eqn:E3; [reflexivity|]. destruct NC. apply colour_ok. auto. }
    destruct (IH c1) as (c' & E' & R' & N' & M' & F'). exists c'. cbn [cpt_lines]. rewrite E1. cbn [bind]. rewrite E', R', N', R1, N1. split; [reflexivity|]. split; [reflexivity|]. split; [reflexivity|]. split.
    + intros w Hw. apply M'. rewrite M1. apply model_step. exact Hw.
    + intros k v Hv. apply F'. rewrite F1. apply flag_step. exact Hv.
  - pose proof HC as HC'. apply colour_ok in HC'. destruct HC' as (E1 & E2 & E3). unfold written in E.
    destruct (c1 s) as [[r1 g1] b1] eqn:C1. destruct (c2 s) as [[r2 g2] b2] eqn:C2.
    set (c1' := mkcpt (c_model c) (c_flags c) (c_rows c ++ [(x1 s, c1 s)])%list (Some (x2 s, c2 s))).
    assert (EL : cpt_line f c l = Ok c1') by (unfold cpt_line; rewrite E1, E2, E3, E; unfold c1'; rewrite C1, C2; reflexivity).
    destruct (IH c1') as (c' & E' & R' & N' & M' & F'). exists c'. cbn [cpt_lines]. rewrite EL. cbn [bind]. rewrite E', R', N'. unfold c1'. cbn [c_rows c_end map]. rewrite <- app_assoc.
    split; [reflexivity|]. split; [reflexivity|]. split; [apply end_step|]. split.
    + intros w Hw. apply M'. apply model_step in Hw. rewrite E1 in Hw. exact Hw.
    + intros k v Hv. apply F'. apply flag_step in Hv. assert (Q : on_flag l k = false) by (unfold on_flag; rewrite E1, E2; reflexivity). rewrite Q in Hv. exact Hv.
Qed.

(** ** C129: the table of a file *)
(** hues of the colour model HSV are in degrees *)
Definition hue_ok (w : string) (c : rgb) : Prop := w = "HSV"%string -> let '(h, _, _) := c in 0 <= h <= 360.
(** a flag without a line, or with the three numbers of a colour *)
Inductive flag_colour (w : string) : option (list R) -> option rgb -> Prop :=
| flag_none : flag_colour w None None
| flag_some r g b : hue_ok w (r, g, b) -> flag_colour w (Some [r; g; b]) (Some (drawn w (r, g, b))).
Definition two_models (w : string) : Prop := w = "RGB"%string \/ w = "HSV"%string.

Lemma paint_ok w c : two_models w -> hue_ok w c -> paint w c = drawn w c.
Proof.
  destruct c as [[r g] b]. intros [-> | ->] H; unfold paint, drawn; cbn [String.eqb Ascii.eqb Bool.eqb]; [reflexivity|]. specialize (H eq_refl). cbn in H. apply hsv_ok. lra.
Qed.
Lemma cpt_run f ls ss w : slices_of f ls ss -> model_of ls w -> exists c, cpt_lines f cpt0 ls = Ok c /\ c_rows c = map (fun s => (x1 s, c1 s)) ss /\ c_end c = end_from None ss /\ c_model c = w /\ forall k v, flag_of f ls k v -> flag_in c k = v.
Proof.
  intros H M. destruct (lines_ok f ls ss H cpt0) as (c & E & Er & Ee & Em & Ef). exists c. split; [exact E|]. split; [exact Er|]. split; [exact Ee|]. split; [apply Em, M|]. intros k v Hv. apply Ef, Hv.
Qed.
Lemma extreme_ok f ls c w k v o : c_model c = w -> two_models w -> (forall k v, flag_of f ls k v -> flag_in c k = v) -> flag_of f ls k v -> flag_colour w v o -> extreme c k = Ok o.
Proof.
  intros Em T F Hv HC. specialize (F _ _ Hv). unfold flag_in in F. unfold extreme. destruct (find _ (c_flags c)) as [[k' l]|]; cbn [option_map snd] in F; subst v; inversion HC; subst; [|reflexivity]. cbn iota. rewrite paint_ok; auto.
Qed.
Lemma known_ok w : two_models w -> known w = true.
Proof. intros [->| ->]; reflexivity. Qed.

Theorem C129_table f ls s ss w fb ff fn cb cf cn e :
  slices_of f ls (s :: ss) -> model_of ls w -> two_models w -> x1 s <> x2 (last ss s) ->
  (forall x c, In (x, c) (nodes s ss) -> hue_ok w c) ->
  flag_of f ls "B"%char fb -> flag_colour w fb cb -> flag_of f ls "F"%char ff -> flag_colour w ff cf -> flag_of f ls "N"%char fn -> flag_colour w fn cn ->
  let table := map (fun '(x, c) => (Some ((x - x1 s) / (x2 (last ss s) - x1 s)), drawn w c)) (nodes s ss) in
  from_cpt f ls e = Ok (if e then mkcolormap table cb cf cn else mkcolormap table None None None).
Proof.
  intros H M T Ne Hue B1 B2 F1 F2 N1 N2 table. destruct (cpt_run _ _ _ _ H M) as (c & E & Er & Ee & Em & Ef). unfold from_cpt. rewrite E. cbn [bind]. rewrite Ee. cbn [end_from].
  rewrite Er, Em. cbv zeta. change (map (fun s => (x1 s, c1 s)) (s :: ss) ++ [(x2 (last ss s), c2 (last ss s))])%list with (nodes s ss).
  change (fst (hd (x2 (last ss s), c2 (last ss s)) (nodes s ss))) with (x1 s). change (fst (x2 (last ss s), c2 (last ss s))) with (x2 (last ss s)).
  rewrite (mapM_map _ (fun '(x, c) => (Some ((x - x1 s) / (x2 (last ss s) - x1 s)), drawn w c))).
  - cbn [bind]. rewrite (extreme_ok _ _ _ _ _ _ _ Em T Ef B1 B2), (extreme_ok _ _ _ _ _ _ _ Em T Ef F1 F2), (extreme_ok _ _ _ _ _ _ _ Em T Ef N1 N2). reflexivity.
  - intros [x y] I. unfold place. rewrite (known_ok _ T). destruct (Req_EM_T _ 0) as [X|_]; [lra|]. cbn [bind fst snd]. rewrite paint_ok; eauto.
Qed.

(** comments anywhere change nothing *)
Lemma run_app f c a b : cpt_lines f c (a ++ b)%list = (do c' <- cpt_lines f c a; cpt_lines f c' b).
Proof. revert c. induction a as [|l a IH]; intros c; [reflexivity|]. cbn [app cpt_lines]. destruct (cpt_line f c l); cbn [bind]; [apply IH|reflexivity]. Qed.
Theorem C129_comments f a l b e : comment_line l -> from_cpt f (a ++ l :: b)%list e = from_cpt f (a ++ b)%list e.
Proof.
  intros (H1 & H2 & H3). unfold from_cpt. rewrite !run_app. destruct (cpt_lines f cpt0 a) as [c|]; cbn [bind]; [|reflexivity]. cbn [cpt_lines].
  assert (E : cpt_line f c l = Ok c).
  { unfold cpt_line. apply none_ok in H1. rewrite H1. assert (B : bfn l = None) by (apply bfn_none; exact H3). rewrite B. apply commented_ok in H2. rewrite H2. reflexivity. }
  rewrite E. reflexivity.
Qed.

(** errors: no colour line; a colour line (an empty one is one) that has not eight numbers; a table without width; a flag that has not three numbers, also when the extremes are not asked for *)
Lemma slices_run f a ss : slices_of f a ss -> exists c, cpt_lines f cpt0 a = Ok c /\ c_end c = end_from None ss.
Proof. intros H. destruct (lines_ok f a ss H cpt0) as (c & E & _ & Ee & _). eauto. Qed.
Theorem C129_errors f e :
  (forall ls, slices_of f ls [] -> from_cpt f ls e = Err UnboundLocalError)
  /\ (forall a ss l b, slices_of f a ss -> colour_line l -> List.length (f l) <> 8%nat -> from_cpt f (a ++ l :: b)%list e = Err ValueError)
  /\ (forall ls s ss w, slices_of f ls (s :: ss) -> model_of ls w -> two_models w -> x1 s = x2 (last ss s) -> from_cpt f ls e = Err ZeroDivision)
  /\ (forall ls s ss w k v, slices_of f ls (s :: ss) -> model_of ls w -> two_models w -> x1 s <> x2 (last ss s) -> In k ["B"; "F"; "N"]%char -> flag_of f ls k (Some v) -> List.length v <> 3%nat -> from_cpt f ls e = Err ValueError).
Proof.
  split; [|split; [|split]].
  - intros ls H. destruct (slices_run _ _ _ H) as (c & E & Ee). unfold from_cpt. rewrite E. cbn [bind]. rewrite Ee. reflexivity.
  - intros a ss l b H HC HL. destruct (slices_run _ _ _ H) as (c & E & _). unfold from_cpt. rewrite run_app, E. cbn [bind cpt_lines]. apply colour_ok in HC. destruct HC as (E1 & E2 & E3).
    assert (EL : cpt_line f c l = Err ValueError).
    { unfold cpt_line. rewrite E1, E2, E3. destruct (f l) as [|a1 [|a2 [|a3 [|a4 [|a5 [|a6 [|a7 [|a8 [|a9 r]]]]]]]]]; try reflexivity. destruct HL. reflexivity. }
    rewrite EL. reflexivity.
  - intros ls s ss w H M T X. destruct (cpt_run _ _ _ _ H M) as (c & E & Er & Ee & Em & _). unfold from_cpt. rewrite E. cbn [bind]. rewrite Ee. cbn [end_from]. rewrite Er. cbn [map app mapM hd fst].
    unfold place at 1. rewrite Em, (known_ok _ T). destruct (Req_EM_T _ 0) as [_|Y]; [reflexivity|]. destruct Y. lra.
  - intros ls s ss w k v H M T Ne Ik Hk L3. destruct (cpt_run _ _ _ _ H M) as (c & E & Er & Ee & Em & Ef). unfold from_cpt. rewrite E. cbn [bind]. rewrite Ee. cbn [end_from]. cbv zeta. rewrite Er. 
    match goal with |- bind ?t _ = _ => assert (Q : exists tb, t = Ok tb) end.
    { apply mapM_ex. intros r I. unfold place. rewrite Em, (known_ok _ T). cbn [map app hd fst]. destruct (Req_EM_T _ 0) as [Y|_]; [exfalso; apply Ne; lra|]. cbn [bind]. eauto. }
    destruct Q as [tb ->]. cbn [bind].
    assert (X : extreme c k = Err ValueError).
    { specialize (Ef _ _ Hk). unfold flag_in in Ef. unfold extreme. destruct (find _ (c_flags c)) as [[k' l]|]; cbn [option_map snd] in Ef; [|discriminate]. injection Ef as ->. destruct v as [|? [|? [|? [|? v]]]]; try reflexivity. destruct L3. reflexivity. }
    assert (Y : forall k, extreme c k = Err ValueError \/ exists o, extreme c k = Ok o).
    { intros k'. unfold extreme. destruct (find _ _) as [[k2 l]|]; [|eauto]. destruct l as [|? [|? [|? [|? ?]]]]; eauto. }
    destruct Ik as [<-|[<-|[<-|[]]]].
    + rewrite X. reflexivity.
    + destruct (Y "B"%char) as [->|[o ->]]; cbn [bind]; [reflexivity|]. rewrite X. reflexivity.
    + destruct (Y "B"%char) as [->|[o ->]]; cbn [bind]; [reflexivity|]. destruct (Y "F"%char) as [->|[o' ->]]; cbn [bind]; [reflexivity|]. rewrite X. reflexivity.
Qed.

(** ** C129: positions and colours of the table *)
Definition pos (s : slice) (ss : list slice) (x : R) : R := (x - x1 s) / (x2 (last ss s) - x1 s).
Definition ascending (l : list (R * rgb)) : Prop := forall k a b, nth_error l k = Some a -> nth_error l (S k) = Some b -> fst a < fst b.
Definition unit_colour (c : rgb) : Prop := let '(r, g, b) := c in 0 <= r <= 1 /\ 0 <= g <= 1 /\ 0 <= b <= 1.
Definition byte_colour (w : string) (c : rgb) : Prop := let '(r, g, b) := c in if String.eqb w "HSV" then 0 <= r <= 360 /\ 0 <= g <= 1 /\ 0 <= b <= 1 else 0 <= r <= 255 /\ 0 <= g <= 255 /\ 0 <= b <= 255.
Lemma ascending_lt l : ascending l -> forall d k a b, nth_error l k = Some a -> nth_error l (S k + d) = Some b -> fst a < fst b.
Proof.
  intros H d. induction d as [|d IH]; intros k a b Ha Hb; [rewrite Nat.add_0_r in Hb; exact (H _ _ _ Ha Hb)|].
  destruct (nth_error l (S k)) as [c|] eqn:Hc; [|exfalso; apply nth_error_None in Hc; assert (S k + S d < List.length l)%nat by (apply nth_error_Some; rewrite Hb; discriminate); lia].
  apply Rlt_trans with (fst c); [exact (H _ _ _ Ha Hc)|]. apply (IH (S k) c b Hc). replace (S (S k) + d)%nat with (S k + S d)%nat by lia. exact Hb.
Qed.
Lemma nodes_ends s ss : nth_error (nodes s ss) 0 = Some (x1 s, c1 s) /\ nth_error (nodes s ss) (S (List.length ss)) = Some (x2 (last ss s), c2 (last ss s)) /\ List.length (nodes s ss) = S (S (List.length ss)).
Proof.
  unfold nodes. split; [reflexivity|]. split.
  - rewrite nth_error_app2; rewrite map_length; cbn [List.length]; [|lia]. rewrite Nat.sub_diag. reflexivity.
  - rewrite app_length, map_length. cbn [List.length]. lia.
Qed.
Lemma ends_lt s ss : ascending (nodes s ss) -> x1 s < x2 (last ss s).
Proof. intros H. destruct (nodes_ends s ss) as (A & B & _). exact (ascending_lt _ H (List.length ss) 0 _ _ A B). Qed.
(** the positions run from 0 to 1 in strictly increasing order, and do not change with the unit of x *)
Theorem C129_positions s ss : ascending (nodes s ss) ->
  pos s ss (x1 s) = 0 /\ pos s ss (x2 (last ss s)) = 1
  /\ (forall k a b, nth_error (nodes s ss) k = Some a -> nth_error (nodes s ss) (S k) = Some b -> pos s ss (fst a) < pos s ss (fst b))
  /\ (forall a, In a (nodes s ss) -> 0 <= pos s ss (fst a) <= 1)
  /\ (forall p q, p <> 0 -> let m := fun t => mkslice (p * x1 t + q) (c1 t) (p * x2 t + q) (c2 t) in forall x, pos (m s) (map m ss) (p * x + q) = pos s ss x).
Proof.
  intros H. pose proof (ends_lt _ _ H) as L. assert (M : forall x y, x < y -> pos s ss x < pos s ss y) by (intros x y Hxy; unfold pos; apply Rmult_lt_compat_r; [apply Rinv_0_lt_compat; lra|lra]).
  assert (P0 : pos s ss (x1 s) = 0) by (unfold pos; field; lra). assert (P1 : pos s ss (x2 (last ss s)) = 1) by (unfold pos; field; lra).
  destruct (nodes_ends s ss) as (N0 & N1 & NL).
  split; [exact P0|]. split; [exact P1|]. split; [intros k a b Ha Hb; apply M; exact (H _ _ _ Ha Hb)|]. split.
  - intros a I. apply In_nth_error in I. destruct I as [k Hk]. assert (Lk : (k < S (S (List.length ss)))%nat) by (rewrite <- NL; apply nth_error_Some; rewrite Hk; discriminate). split.
    + destruct k as [|k]; [rewrite N0 in Hk; injection Hk as <-; cbn [fst]; lra|]. rewrite <- P0. apply Rlt_le, M. exact (ascending_lt _ H k 0 _ _ N0 Hk).
    + destruct (Nat.eq_dec k (S (List.length ss))) as [->|Nk]; [rewrite N1 in Hk; injection Hk as <-; cbn [fst]; lra|]. rewrite <- P1. apply Rlt_le, M.
      apply (ascending_lt _ H (List.length ss - k) k _ (x2 (last ss s), c2 (last ss s)) Hk). replace (S k + (List.length ss - k))%nat with (S (List.length ss)) by lia. exact N1.
  - intros p q Np m x. assert (Q : last (map m ss) (m s) = m (last ss s)) by (clear; induction ss as [|y r IH]; [reflexivity|]; cbn [map last]; destruct r; [reflexivity|]; exact IH).
    unfold pos. rewrite Q. cbn [m x1 x2]. field. split; [lra|]. intros E. replace (p * x2 (last ss s) + q - (p * x1 s + q)) with (p * (x2 (last ss s) - x1 s)) in E by ring. apply Rmult_integral in E. lra.
Qed.
Lemma channel_range h s v n : 0 <= s <= 1 -> 0 <= v <= 1 -> 0 <= hsv_channel h s v n <= 1.
Proof.
  intros Hs Hv. unfold hsv_channel. set (k := around _). clearbody k. cbv zeta. set (m := Rmax 0 _). assert (Hm : 0 <= m <= 1) by (unfold m; mm). clearbody m.
  assert (A : 0 <= s * m <= 1) by nra. replace (v - v * s * m) with (v * (1 - s * m)) by ring. nra.
Qed.
(** colours that are proper in the colour model of the file are drawn with channels from 0 to 1 *)
Theorem C129_channels w c : byte_colour w c -> unit_colour (drawn w c).
Proof.
  destruct c as [[r g] b]. unfold byte_colour, drawn. destruct (String.eqb w "HSV").
  - intros (_ & Hg & Hb). unfold unit_colour, hsv_colour. split; [|split]; apply channel_range; assumption.
  - intros (Hr & Hg & Hb). unfold unit_colour. lra.
Qed.
(** the colours of the wheel: black for value 0, grey for saturation 0, and red, green and blue at 0, 120 and 240 degrees *)
Theorem C129_wheel : (forall h s, drawn "HSV" (h, s, 0) = (0, 0, 0)) /\ (forall h v, drawn "HSV" (h, 0, v) = (v, v, v))
  /\ drawn "HSV" (0, 1, 1) = (1, 0, 0) /\ drawn "HSV" (360, 1, 1) = (1, 0, 0) /\ drawn "HSV" (120, 1, 1) = (0, 1, 0) /\ drawn "HSV" (240, 1, 1) = (0, 0, 1).
Proof.
  unfold drawn. cbn [String.eqb Ascii.eqb Bool.eqb]. unfold hsv_colour, hsv_channel. cbv zeta.
  split; [intros; f_equal; [f_equal|]; ring|]. split; [intros; f_equal; [f_equal|]; ring|].
  rewrite (around_at (5 + 6 * (0 / 360)) 0), (around_at (3 + 6 * (0 / 360)) 0), (around_at (1 + 6 * (0 / 360)) 0) by lra.
  rewrite (around_at (5 + 6 * (360 / 360)) 1), (around_at (3 + 6 * (360 / 360)) 1), (around_at (1 + 6 * (360 / 360)) 1) by lra.
  rewrite (around_at (5 + 6 * (120 / 360)) 1), (around_at (3 + 6 * (120 / 360)) 0), (around_at (1 + 6 * (120 / 360)) 0) by lra.
  rewrite (around_at (5 + 6 * (240 / 360)) 1), (around_at (3 + 6 * (240 / 360)) 1), (around_at (1 + 6 * (240 / 360)) 0) by lra.
  split; [|split; [|split]]; (f_equal; [f_equal|]); mm.
Qed.

(** a linear map between two neighbours of the table *)
Definition mix (t : R) (a b : rgb) : rgb := let '(r, g, b1) := a in let '(r', g', b1') := b in (r + t * (r' - r), g + t * (g' - g), b1 + t * (b1' - b1)).
(** for RGB: between the start of slice k and the next node, the colours of the table are those of the slice exactly when the slice ends in the colour of the next node *)
Theorem C129_between s ss k sl nx : ascending (nodes s ss) -> nth_error (s :: ss) k = Some sl -> nth_error (nodes s ss) (S k) = Some nx -> x2 sl = fst nx ->
  forall x, x1 sl <= x <= x2 sl ->
  let t := (pos s ss x - pos s ss (x1 sl)) / (pos s ss (fst nx) - pos s ss (x1 sl)) in
  let shown := mix t (drawn "RGB" (c1 sl)) (drawn "RGB" (snd nx)) in
  let meant := drawn "RGB" (mix ((x - x1 sl) / (x2 sl - x1 sl)) (c1 sl) (c2 sl)) in
  (c2 sl = snd nx -> shown = meant) /\ (c2 sl <> snd nx -> x1 sl < x -> shown <> meant).
Proof.
  intros H Hs Hn E x Hx. cbv zeta. pose proof (ends_lt _ _ H) as L.
  assert (Hk : nth_error (nodes s ss) k = Some (x1 sl, c1 sl)).
  { unfold nodes. rewrite nth_error_app1 by (rewrite map_length; apply nth_error_Some; rewrite Hs; discriminate). apply (map_nth_error (fun s => (x1 s, c1 s))) in Hs. exact Hs. }
  pose proof (H _ _ _ Hk Hn) as Lt. cbn [fst] in Lt. rewrite <- E in *. 
  assert (T : (pos s ss x - pos s ss (x1 sl)) / (pos s ss (x2 sl) - pos s ss (x1 sl)) = (x - x1 sl) / (x2 sl - x1 sl)).
  { unfold pos. field. repeat split; Lra.lra. }
  rewrite T. set (u := (x - x1 sl) / (x2 sl - x1 sl)).
  destruct nx as [xn cn]. cbn [snd fst] in *. destruct (c1 sl) as [[r1 g1] b1]. destruct (c2 sl) as [[r2 g2] b2]. destruct cn as [[r3 g3] b3].
  unfold drawn, mix. cbn [String.eqb Ascii.eqb Bool.eqb]. split.
  - intros [= -> -> ->]. f_equal; [f_equal|]; field.
  - intros Nc Lx. assert (U : u <> 0) by (unfold u; intros Z; apply Rmult_integral in Z; destruct Z as [Z|Z]; [lra|]; assert (0 < / (x2 sl - x1 sl)) by (apply Rinv_0_lt_compat; lra); lra).
    intros [= E1 E2 E3]. apply Nc.
    assert (Z : forall p q v, p / 255 + u * (q / 255 - p / 255) = (p + u * (v - p)) / 255 -> v = q).
    { intros p q v Q. assert (Y : u * (v - q) = 0) by lra. apply Rmult_integral in Y. destruct Y; [contradiction|lra]. }
    rewrite (Z _ _ _ E1), (Z _ _ _ E2), (Z _ _ _ E3). reflexivity.
Qed.

(** a colour model that is not written in capitals is taken, but nothing is done with it: the table has no positions and its colours are those of the file *)
Theorem C129_lower_case_model f ls s ss w e : slices_of f ls (s :: ss) -> model_of ls w -> ~ two_models w -> (forall l k, In l ls -> ~ flag_line l k) ->
  from_cpt f ls e = Ok (mkcolormap (map (fun '(x, c) => (None, c)) (nodes s ss)) None None None).
Proof.
  intros H M T NF. destruct (cpt_run _ _ _ _ H M) as (c & E & Er & Ee & Em & Ef). unfold from_cpt. rewrite E. cbn [bind]. rewrite Ee. cbn [end_from]. rewrite Er, Em. cbv zeta.
  assert (N1 : String.eqb w "HSV" = false) by (apply String.eqb_neq; intros ->; apply T; right; reflexivity). assert (N2 : String.eqb w "RGB" = false) by (apply String.eqb_neq; intros ->; apply T; left; reflexivity).
  change (map (fun s => (x1 s, c1 s)) (s :: ss) ++ [(x2 (last ss s), c2 (last ss s))])%list with (nodes s ss).
  rewrite (mapM_map _ (fun '(x, c) => (None, c))).
  - cbn [bind]. assert (X : forall k, extreme c k = Ok None).
    { intros k. assert (F : flag_in c k = None) by (apply Ef; right; split; [reflexivity|intros l I; apply NF, I]). unfold flag_in in F. unfold extreme. destruct (find _ _); [discriminate|reflexivity]. }
    rewrite !X. cbn [bind]. destruct e; reflexivity.
  - intros [x [[r g] b]] I. unfold place, known. rewrite N1, N2. cbn [orb bind fst snd]. unfold paint. rewrite N1, N2. reflexivity.
Qed.

(** ** C129: a file *)
Local Open Scope string_scope.
Definition nums (l : string) : list R :=
  if String.eqb l "0 0 0 0 1 255 0 0" then [0; 0; 0; 0; 1; 255; 0; 0] else if String.eqb l "1 0 0 255 3 0 0 255" then [1; 0; 0; 255; 3; 0; 0; 255]
  else if String.eqb l "B 255 255 255" then [255; 255; 255] else if String.eqb l "f 0 255 0" then [0; 255; 0] else [].
Close Scope string_scope.
Definition file1 : list string := ["# a table"; "# color_model = RGB"; "0 0 0 0 1 255 0 0"; "1 0 0 255 3 0 0 255"; "B 255 255 255"; "f 0 255 0"]%string.
Definition sl1 := mkslice 0 (0, 0, 0) 1 (255, 0, 0).
Definition sl2 := mkslice 1 (0, 0, 255) 3 (0, 0, 255).
Ltac no_letter := let c := fresh in let r := fresh in let E := fresh in let I := fresh in intros c r E I; injection E as <- _; unfold flag_letter in I; cbn [In] in I; repeat (destruct I as [I|I]; [discriminate I|]); exact I.
(** the upper-case flag is used, the lower-case flag is not; the jump at 1 from red to blue is lost *)
Example C129_file : slices_of nums file1 [sl1; sl2] /\ model_of file1 "RGB" /\ ascending (nodes sl1 [sl2])
  /\ from_cpt nums file1 true = Ok (mkcolormap [(Some 0, (0, 0, 0)); (Some (1 / 3), (0, 0, 1)); (Some 1, (0, 0, 1))] (Some (1, 1, 1)) None None)
  /\ mix (1 / 2) (drawn "RGB" (c1 sl1)) (drawn "RGB" (c1 sl2)) = (0, 0, 1 / 2) /\ drawn "RGB" (mix (1 / 2) (c1 sl1) (c2 sl1)) = (1 / 2, 0, 0).
Proof.
  assert (HS : slices_of nums file1 [sl1; sl2]).
  { unfold file1. apply other_line; [intros HC; apply colour_ok in HC; destruct HC as (_ & _ & HC); discriminate HC|]. apply other_line; [intros HC; apply colour_ok in HC; destruct HC as (HC & _); discriminate HC|].
    apply slice_line; [apply colour_ok; repeat split|reflexivity|]. apply slice_line; [apply colour_ok; repeat split|reflexivity|].
    apply other_line; [intros HC; apply colour_ok in HC; destruct HC as (_ & HC & _); discriminate HC|]. apply other_line; [intros HC; apply colour_ok in HC; destruct HC as (_ & HC & _); discriminate HC|]. apply no_line. }
  assert (HM : model_of file1 "RGB").
  { left. exists ["# a table"%string], "# color_model = RGB"%string, ["0 0 0 0 1 255 0 0"; "1 0 0 255 3 0 0 255"; "B 255 255 255"; "f 0 255 0"]%string. split; [reflexivity|]. split; [apply says_ok; reflexivity|].
    intros l' w' I Q. apply says_ok in Q. cbn [In] in I. repeat (destruct I as [<-|I]; [discriminate Q|]). exact I. }
  split; [exact HS|]. split; [exact HM|]. split.
  { intros k a b Ha Hb. destruct k as [|[|[|k]]]; cbn in Ha, Hb; try discriminate; injection Ha as <-; injection Hb as <-; cbn; lra. }
  split.
  { erewrite (C129_table nums file1 sl1 [sl2] "RGB" (Some [255; 255; 255]) None None (Some (drawn "RGB" (255, 255, 255))) None None true HS HM).
    - cbn [map nodes app last x1 x2 c1 c2 sl1 sl2]. unfold drawn. cbn [String.eqb Ascii.eqb Bool.eqb]. repeat f_equal; lra.
    - left. reflexivity.
    - cbn. lra.
    - intros x c _ Q. discriminate Q.
    - left. exists ["# a table"; "# color_model = RGB"; "0 0 0 0 1 255 0 0"; "1 0 0 255 3 0 0 255"]%string, "B 255 255 255"%string, ["f 0 255 0"]%string. split; [reflexivity|]. split; [apply flag_ok; split; reflexivity|]. split; [reflexivity|].
      intros l' [<-|[]] Q. apply flag_ok in Q. destruct Q as [_ Q]. discriminate Q.
    - apply flag_some. intros Q. discriminate Q.
    - right. split; [reflexivity|]. intros l' I Q. apply flag_ok in Q. destruct Q as [_ Q]. cbn [file1 In] in I. repeat (destruct I as [<-|I]; [discriminate Q|]). exact I.
    - apply flag_none.
    - right. split; [reflexivity|]. intros l' I Q. apply flag_ok in Q. destruct Q as [_ Q]. cbn [file1 In] in I. repeat (destruct I as [<-|I]; [discriminate Q|]). exact I.
    - apply flag_none. }
  unfold mix, drawn. cbn [c1 c2 sl1 sl2 String.eqb Ascii.eqb Bool.eqb]. split; (apply f_equal2; [apply f_equal2|]); lra.
Qed.
(** an empty line is a colour line without numbers *)
Example C129_empty_line : colour_line "" /\ from_cpt nums (file1 ++ [""%string])%list true = Err ValueError /\ has_model "# COLOR_MODEL = hsv" "hsv" "" /\ model_of ["# COLOR_MODEL = hsv"%string] "hsv".
Proof.
  assert (HC : colour_line "") by (apply colour_ok; repeat split). split; [exact HC|]. split.
  - destruct (C129_errors nums true) as (_ & H & _). destruct C129_file as (HS & _). apply (H _ _ _ _ HS HC). discriminate.
  - split; [exists "# "%string, "COLOR_MODEL"%string, " = "%string; split; [reflexivity|]; split; [reflexivity|left; reflexivity]|]. left. exists [], "# COLOR_MODEL = hsv"%string, []. split; [reflexivity|]. split; [apply says_ok; reflexivity|intros l' w' []].
Qed.
