(** C116, second part: theorems. *)
From Coq Require Import Reals Ascii String Lra Lia.
From Verif Require Import Base UnitsModel UtilModel LoveModel PropLove TextModel TextProofs PropText PropText2 LoveTextModel PropLoveText.
Close Scope Z_scope.
Close Scope R_scope.
Open Scope nat_scope.
Open Scope list_scope.
Local Opaque max_degree.

Lemma first_found x xs s : shows true true (x :: xs) s -> item_ok false x -> exists more, findall love_pattern s = item_text x :: more.
Proof.
  intros H V. inversion H as [|? g ? ? s' G NI _ _ L]; subst. unfold findall.
  destruct (love_gap true g (item_text x ++ s') (S (List.length (g ++ item_text x ++ s'))) G NI ltac:(lia)) as (n & N & ->). destruct n as [|n]; [lia|]. cbn [findall_at].
  assert (K : stops false s'). { pose proof (shows_stops _ _ _ L) as K. destruct s' as [|c u]; [exact Logic.I|]. cbn in *. repeat split; try tauto. destruct K as (_ & _ & K). apply exp_not in K. apply exp_not. unfold exp_letter in *. tauto. }
  rewrite love_scan, (love_item _ _ V K). eexists. reflexivity.
Qed.
Lemma degree_plain x n : item_ok true x -> is_degree x n -> item_ok false x.
Proof. destruct x as [d|]; [|trivial]. intros (A & B & _) (F & E & _). repeat split; cbn; [exact A|exact B|]. now rewrite E. Qed.
Lemma last_ok swapped cols line e : columns_of swapped cols -> row_shows swapped line e -> exists t, love_last cols line = Ok t /\ (t = TInt (fst e) \/ (t = TInf /\ fst e = max_degree)).
Proof.
  intros (mc & ->) (x0 & x1 & x2 & x3 & more & SH & D0 & _). pose proof (shows_items _ _ _ _ SH) as IT. inversion IT as [|? ? I0 _]; subst. pose proof (degree_plain _ _ I0 D0) as V.
  destruct (first_found _ _ _ SH V) as (rest & E). unfold love_last. change (index_of "l" _) with (Some 0). cbn iota. rewrite E. cbn [nth_error].
  destruct (love_tok_ok x0 V) as (t & T & _ & T'). exists t. split; [exact T|]. now apply T'.
Qed.
Lemma skipn_snoc {A} (l : list A) n x y : skipn n l = x ++ [y] -> exists z, l = z ++ [y] /\ n < List.length l.
Proof.
  intros H. exists (firstn n l ++ x). rewrite <- app_assoc, <- H, firstn_skipn. split; [reflexivity|]. destruct (Nat.lt_ge_cases n (List.length l)) as [L|L]; [exact L|].
  rewrite skipn_all2 in H by exact L. destruct x; discriminate.
Qed.
Lemma Forall2_snoc {A B} (P : A -> B -> Prop) l l2 y : Forall2 P l (l2 ++ [y]) -> exists l1 x, l = l1 ++ [x] /\ P x y.
Proof.
  intros H. apply Forall2_app_inv_r in H. destruct H as (l1 & l1' & _ & H & ->). inversion H as [|x ? ? ? Q H']; subst. inversion H'; subst. eauto.
Qed.
Lemma text_main header swapped cols lines es d : columns_of swapped cols -> file_shows header swapped lines es d ->
  exists contents, file_reads contents header cols es d /\ forall LMAX REF, read_love_text lines LMAX header cols REF = read_love_numbers contents (Some (top LMAX d)) header cols REF.
Proof.
  intros C (F & D & es' & e & EE & ED). destruct (rows_ok _ _ _ _ C F) as (rows & R1 & R2). rewrite EE in F. destruct (Forall2_snoc _ _ _ _ F) as (l1 & last & E1 & RL).
  destruct (skipn_snoc _ _ _ _ E1) as (z & EZ & HL). exists (repeat [] (Nat.min header (List.length lines)) ++ rows). split.
  - split; [|split; [exact D|exists es', e; split; assumption]]. rewrite skipn_app, repeat_length, Nat.min_l, Nat.sub_diag by lia. rewrite skipn_all2 by (rewrite repeat_length; lia). exact R2.
  - intros LMAX REF. unfold read_love_text. rewrite EZ at 1. rewrite rev_app_distr. cbn [rev app]. destruct (last_ok _ _ _ _ C RL) as (t & -> & T). cbn [bind].
    assert (N : (match LMAX, t with Some n, _ => Ok n | None, TInf => Ok max_degree | None, TInt n => Ok n | None, TReal _ => Err ValueError end) = Ok (top LMAX d)).
    { destruct LMAX as [n|]; [reflexivity|]. cbn [top]. destruct T as [->|[-> Q]]; [now rewrite ED|congruence]. }
    rewrite N. cbn [bind]. rewrite R1. reflexivity.
Qed.
Lemma source_ok k file header swapped model citation : published k = Some (file, header, swapped, model, citation) ->
  exists cols, love_source k = Ok (file, header, cols, model, citation) /\ columns_of swapped cols.
Proof.
  assert (X : forall z, k = z -> published z = Some (file, header, swapped, model, citation) -> (forall mc cols, love_source z = Ok (file, header, cols, model, citation) -> cols = (["l"%string; "hl"%string] ++ (if swapped then ["ll"%string; "kl"%string] else ["kl"%string; "ll"%string]) ++ mc)%list -> exists cols, love_source k = Ok (file, header, cols, model, citation) /\ columns_of swapped cols)).
  { intros z -> _ mc cols H H'. exists cols. split; [exact H|]. now exists mc. }
  intros H. destruct k as [|[[[?|?|]|[?|?|]|]|[[?|?|]|[?|?|]|]|]|]; cbn in H; try discriminate; injection H as <- <- <- <- <-; clear X.
  all: eexists; split; [reflexivity|]; eexists; reflexivity.
Qed.
(** the arrays behind every format *)
Lemma load_main k file header swapped model citation data lines es d LMAX REF FORMAT : published k = Some (file, header, swapped, model, citation) ->
  data file = Some lines -> file_shows header swapped lines es d ->
  exists cols contents, file_reads contents header cols es d /\ forall v, read_love_numbers contents (Some (top LMAX d)) header cols REF = Ok v ->
    load_love_numbers data LMAX k REF FORMAT =
      Ok (match format_love FORMAT (List.length (fst (fst v)) - 1) v with
          | LClass o => LClass (mklove (o_hl o) (o_kl o) (o_ll o) (o_lmax o) (o_l o) (Some REF) (Some model) (Some citation) (Some file))
          | x => x end).
Proof.
  intros P DF FS. destruct (source_ok _ _ _ _ _ _ P) as (cols & S & C). destruct (text_main header swapped cols lines es d C FS) as (contents & FR & E). exists cols, contents. split; [exact FR|].
  intros v V. unfold load_love_numbers. rewrite S. cbn [bind]. rewrite DF, E, V. cbn [bind]. now destruct (format_love FORMAT _ v).
Qed.

(** ** C116 *)
Section C116.
Context (data : string -> option (list text)) (k : Z) (file : string) (header : nat) (swapped : bool) (model citation : string) (lines : list text) (es : list entry) (d : nat) (LMAX : option nat) (REF : string).
Hypothesis HP : published k = Some (file, header, swapped, model, citation).
Hypothesis HD : data file = Some lines.
Hypothesis HF : file_shows header swapped lines es d.
Let L := top LMAX d.
Hypothesis HL : 1 <= L.
Hypothesis HE : exists l, l <= L /\ listed es l.
Hypothesis HV : valid_frame REF.

(** the numbers printed in the file of the model are returned for all degrees before its last line (degree 1 in the frame of the file) *)
Theorem C116_values : exists h kk l, load_love_numbers data LMAX k REF "tuple" = Ok (LTuple h kk l) /\
  List.length h = L + 1 /\ List.length kk = L + 1 /\ List.length l = L + 1 /\
  forall e, row_of es e -> fst e <= L -> fst e < d -> (fst e <> 1 \/ upper REF = "CE"%string) -> nth (fst e) h 0%R = eh e /\ nth (fst e) kk 0%R = ek e /\ nth (fst e) l 0%R = el e.
Proof.
  destruct (load_main k file header swapped model citation data lines es d LMAX REF "tuple" HP HD HF) as (cols & contents & FR & E).
  destruct (C51_file_values contents header cols es d (Some L) REF FR HL HE HV) as (((h & kk) & l) & V & A & B & C & W). exists h, kk, l. split; [exact (E _ V)|]. repeat (split; [assumption|]). exact W.
Qed.
(** degrees before the first one of the file (degree 0 of the PREM files) take the values of the first one *)
Theorem C116_before_first : exists h kk l, load_love_numbers data LMAX k REF "tuple" = Ok (LTuple h kk l) /\
  forall n eb, row_of es eb -> n < fst eb -> fst eb <= L -> n < d -> (forall j, j < fst eb -> ~ listed es j) -> (n <> 1 \/ upper REF = "CE"%string) ->
    nth n h 0%R = eh eb /\ nth n kk 0%R = ek eb /\ nth n l 0%R = el eb.
Proof.
  destruct (load_main k file header swapped model citation data lines es d LMAX REF "tuple" HP HD HF) as (cols & contents & FR & E).
  destruct (C51_before_first contents header cols es d (Some L) REF FR HL HE HV) as (((h & kk) & l) & V & W). exists h, kk, l. split; [exact (E _ V)|exact W].
Qed.
(** REFUTED at the last degree of the file *)
Theorem C116_last_degree_refuted : upper REF = "CE"%string -> exists h kk l, load_love_numbers data LMAX k REF "tuple" = Ok (LTuple h kk l) /\
  forall n, d <= n <= L -> (nth n h 0 = 2 * nth (n - 1) h 0 - nth (n - 2) h 0 /\ nth n kk 0 = 2 * nth (n - 1) kk 0 - nth (n - 2) kk 0 /\ nth n l 0 = 2 * nth (n - 1) l 0 - nth (n - 2) l 0)%R.
Proof.
  intros CE. destruct (load_main k file header swapped model citation data lines es d LMAX REF "tuple" HP HD HF) as (cols & contents & FR & E).
  destruct (C51_last_degree_refuted contents header cols es d (Some L) REF FR HL HE HV CE) as (((h & kk) & l) & V & W). exists h, kk, l. split; [exact (E _ V)|exact W].
Qed.
(** all formats hold the same numbers; the object also its maximum degree, frame, model, citation and file; an unknown format gives None *)
Theorem C116_formats : exists h kk l, load_love_numbers data LMAX k REF "tuple" = Ok (LTuple h kk l) /\
  load_love_numbers data LMAX k REF "dict" = Ok (LDict (seq 0 (L + 1)) h kk l) /\
  load_love_numbers data LMAX k REF "class" = Ok (LClass (mklove h kk l L (seq 0 (L + 1)) (Some REF) (Some model) (Some citation) (Some file))) /\
  (exists rows, load_love_numbers data LMAX k REF "zip" = Ok (LZip rows) /\ List.length rows = L + 1 /\
     forall n, n <= L -> nth n rows (0, 0, 0)%R = (nth n h 0, nth n kk 0, nth n l 0)%R) /\
  forall FORMAT, ~ In FORMAT ["tuple"; "dict"; "class"; "zip"]%string -> load_love_numbers data LMAX k REF FORMAT = Ok LNone.
Proof.
  assert (X : exists h kk l, List.length h = L + 1 /\ List.length kk = L + 1 /\ List.length l = L + 1 /\ forall FORMAT, load_love_numbers data LMAX k REF FORMAT = Ok (match format_love FORMAT (List.length h - 1) (h, kk, l) with
          | LClass o => LClass (mklove (o_hl o) (o_kl o) (o_ll o) (o_lmax o) (o_l o) (Some REF) (Some model) (Some citation) (Some file))
          | x => x end)).
  { destruct (source_ok _ _ _ _ _ _ HP) as (cols & S & C). destruct (text_main header swapped cols lines es d C HF) as (contents & FR & E).
    destruct (C51_file_values contents header cols es d (Some L) REF FR HL HE HV) as (((h & kk) & l) & V & A & B & D & _). exists h, kk, l. repeat (split; [assumption|]).
    intros FORMAT. unfold load_love_numbers. rewrite S. cbn [bind]. rewrite HD, E. fold L. rewrite V. cbn [bind fst snd]. now destruct (format_love FORMAT _ _). }
  destruct X as (h & kk & l & A & B & C & X). exists h, kk, l. rewrite !X. unfold format_love, obj_from_dict. cbn [String.eqb Ascii.eqb Bool.eqb o_hl o_kl o_ll o_lmax o_l]. rewrite A.
  replace (L + 1 - 1) with L by lia. split; [reflexivity|]. split; [reflexivity|]. split; [reflexivity|]. split.
  - exists (zip3 h kk l). split; [reflexivity|]. clear X. clearbody L. revert kk l L HL HE A B C. clear. assert (G : forall (h kk l : list R) n, List.length h = n -> List.length kk = n -> List.length l = n -> List.length (zip3 h kk l) = n /\ forall i, i < n -> nth i (zip3 h kk l) (0, 0, 0)%R = (nth i h 0, nth i kk 0, nth i l 0)%R).
    { clear. induction h as [|x h IH]; intros [|y kk] [|z l] [|n]; cbn; try discriminate; [intros; split; [reflexivity|lia]|]. intros [= A] [= B] [= C]. destruct (IH kk l n A B C) as (P & Q). split; [congruence|]. intros [|i] H; [reflexivity|]. apply Q. lia. }
    intros kk l L _ _ A B C. destruct (G h kk l (L + 1) A B C) as (P & Q). split; [exact P|]. intros n H. apply Q. lia.
  - intros FORMAT N. rewrite X. unfold format_love. cbn in N. destruct (String.eqb_spec FORMAT "dict") as [->|_]; [tauto|]. destruct (String.eqb_spec FORMAT "tuple") as [->|_]; [tauto|]. destruct (String.eqb_spec FORMAT "zip") as [->|_]; [tauto|]. destruct (String.eqb_spec FORMAT "class") as [->|_]; [tauto|]. reflexivity.
Qed.
(** an object read in the frame of the file and transformed is the object read in the other frame *)
Theorem C116_frames : exists o, load_love_numbers data LMAX k "CE" "class" = Ok (LClass o) /\
  (do o' <- obj_transform o REF; Ok (LClass o')) = load_love_numbers data LMAX k REF "class".
Proof.
  destruct (source_ok _ _ _ _ _ _ HP) as (cols & S & C). destruct (text_main header swapped cols lines es d C HF) as (contents & FR & E).
  destruct (C51_file_values contents header cols es d (Some L) "CE" FR HL HE) as (v & V & A & B & D & _); [unfold valid_frame; cbn; tauto|].
  change (List.length (fst (fst v)) = L + 1) in A. change (List.length (snd (fst v)) = L + 1) in B. change (List.length (snd v) = L + 1) in D.
  pose proof (C52_read_is_transform contents header cols es d (Some L) REF v FR HL HE HV V) as T. destruct (C52_transform v REF) as (v' & TV & _); [unfold long; rewrite A, B, D; clear - HL; clearbody L; lia|exact HV|].
  assert (LEN : List.length (fst (fst v')) = L + 1). { destruct v as [[h kk] l]. unfold transform in TV. destruct (frame_alpha REF (nth 1 h 0%R) (nth 1 l 0%R)); [|discriminate]. cbn [bind] in TV. destruct (_ || _)%bool; [discriminate|]. injection TV as <-. cbn [fst snd] in *. now rewrite upd_length. }
  unfold load_love_numbers. rewrite S. cbn [bind]. rewrite HD, !E. fold L. rewrite V, T, TV. cbn [bind]. destruct v as [[h kk] l], v' as [[h' kk'] l']. cbn [fst snd] in *. unfold format_love, obj_from_dict. cbn [String.eqb Ascii.eqb Bool.eqb].
  eexists. split; [reflexivity|]. unfold obj_transform. cbn [o_hl o_kl o_ll o_lmax o_l o_model o_citation o_filename]. rewrite TV. cbn [bind]. now rewrite A, LEN.
Qed.
End C116.
Print Assumptions C116_values.
Print Assumptions C116_formats.
Print Assumptions C116_frames.

(** no file is read for an unknown model; a missing file is reported *)
Theorem C116_unknown : forall data LMAX k REF FORMAT, published k = None -> load_love_numbers data LMAX k REF FORMAT = Err ValueError.
Proof.
  intros data LMAX k REF FORMAT H. unfold load_love_numbers. assert (E : love_source k = Err ValueError); [|now rewrite E].
  unfold love_source. destruct (Z.eqb_spec k 0) as [->|_]; [discriminate|]. destruct (Z.eqb_spec k 1) as [->|_]; [discriminate|]. destruct (Z.eqb_spec k 2) as [->|_]; [discriminate|]. destruct (Z.eqb_spec k 3) as [->|_]; [discriminate|]. destruct (Z.eqb_spec k 4) as [->|_]; [discriminate|]. reflexivity.
Qed.
Theorem C116_missing_file : forall data LMAX k REF FORMAT file header swapped model citation, published k = Some (file, header, swapped, model, citation) -> data file = None ->
  load_love_numbers data LMAX k REF FORMAT = Err FileNotFound.
Proof. intros data LMAX k REF FORMAT file header swapped model citation P D. destruct (source_ok _ _ _ _ _ _ P) as (cols & S & _). unfold load_love_numbers. rewrite S. cbn [bind]. now rewrite D. Qed.

(** REFUTED: with a maximum degree of zero an unknown frame is not noticed *)
Theorem C116_zero_degree_refuted : forall data k file header swapped model citation lines es d REF, published k = Some (file, header, swapped, model, citation) ->
  data file = Some lines -> file_shows header swapped lines es d -> exists h kk l, load_love_numbers data (Some 0) k REF "tuple" = Ok (LTuple h kk l).
Proof.
  intros data k file header swapped model citation lines es d REF P D F. destruct (source_ok _ _ _ _ _ _ P) as (cols & S & C). destruct (text_main header swapped cols lines es d C F) as (contents & FR & E).
  unfold load_love_numbers. rewrite S. cbn [bind]. rewrite D, E. cbn [top]. destruct FR as (FR & Hd & es' & e & -> & HE).
  unfold read_love_numbers. destruct (rev contents) as [|last more] eqn:RV.
  { apply (f_equal (@rev _)) in RV. rewrite rev_involutive in RV. cbn in RV. subst contents. rewrite skipn_nil in FR. inversion FR. now destruct es'. }
  assert (LAST : reads cols last e).
  { destruct (Forall2_snoc _ _ _ _ FR) as (l1 & x & EX & RX). destruct (skipn_snoc _ _ _ _ EX) as (z & EZ & _). rewrite EZ, rev_app_distr in RV. cbn in RV. injection RV as <- _. exact RX. }
  assert (CL : exists t, column cols "l" last = Ok t) by (destruct LAST as ([X|[X _]] & _); eauto). destruct CL as (t & ->). cbn [bind]. rewrite (read_rows_ok _ _ _ _ FR). cbn [bind]. change (0 =? 0) with true. cbn iota. cbn [bind]. unfold love_tuple. cbn [fst format_love String.eqb Ascii.eqb Bool.eqb].
  eexists _, _, _. reflexivity.
Qed.
Print Assumptions C116_zero_degree_refuted.

(** REFUTED: if another column with a Fortran exponent comes before the degree, the maximum degree is taken from a piece of that number *)
Definition fortran_first : list text := map chars ["0.0D+00 0 0.0 0.0"; "0.5D+00 1 0.1 0.2"; "0.7D+00 2 0.1 0.3"; "0.9D+01 3 0.1 0.2"; "0.9D+01 7 0.1 0.2"]%string.
Theorem C116_column_order_refuted : forall REF,
  love_last ["hl"; "l"; "kl"; "ll"]%string (chars "0.9D+01 7 0.1 0.2") = Ok (TInt 1) /\ (exists ts, love_row (chars "0.9D+01 7 0.1 0.2") = Ok ts /\ column ["hl"; "l"; "kl"; "ll"]%string "l" ts = Ok (TInt 7)) /\ read_love_text fortran_first None 0 ["hl"; "l"; "kl"; "ll"]%string REF = read_love_text fortran_first (Some 1) 0 ["hl"; "l"; "kl"; "ll"]%string REF.
Proof. intros REF. split; [reflexivity|]. split; [eexists; split; reflexivity|]. reflexivity. Qed.

(** a file that meets the hypotheses: the first lines of the published file of Han and Wahr *)
Definition example_data (file : string) : option (list text) := if String.eqb file "love_numbers" then Some (map chars
  ["  l    h                 k                   l"; "************************************************"; "  0  -0.13273           0.                   0."; "  1  -0.28796165358324  0.    1.0283235526008D-01"; "  2  -0.99015777857079  -0.30252982142510    2.3882296795977D-02"]%string) else None.
Ltac no_i_tac := unfold no_i; cbn; intuition discriminate.
Ltac item_tac g0 x0 s0 := refine (shows_item _ _ (chars g0) x0 _ (chars s0) _ _ _ _ _); [gap_tac|no_i_tac|valid_tac|(now left) || (right; left; discriminate)|].
Definition dec_of (s : option bool) (a b : string) (e : option string) : decimal := mkdec s (chars a) (Some (chars b)) (match e with Some x => Some ("D"%char, Some true, chars x) | None => None end).
Definition int_of (a : string) : decimal := mkdec None (chars a) None None.
Lemma row_intro line x0 x1 x2 x3 n v1 v2 v3 : shows true true [x0; x1; x2; x3] line -> is_degree x0 n -> is_value x1 v1 -> is_value x2 v2 -> is_value x3 v3 -> row_shows false line (n, (v1, v2, v3)).
Proof. intros. exists x0, x1, x2, x3, []. repeat split; assumption. Qed.
Lemma int_degree a n : digits (chars a) -> digits_value (chars a) = Z.of_nat n -> is_degree (Num (int_of a)) n.
Proof.
  intros D H. cbn. repeat split; try discriminate. unfold value, exponent_of. cbn [int_of d_sign d_int d_frac d_exp negate powerRZ]. rewrite <- digits_numeral by exact D. rewrite H, INR_IZR_INZ. ring.
Qed.
Example example_file : exists lines es, example_data "love_numbers" = Some lines /\ file_shows 2 false lines es 2.
Proof.
  eexists _, [(0, _); (1, _); (2, _)]. split; [reflexivity|]. split; [|split; [lia|]].
  2: { eexists [_; _], _. split; reflexivity. }
  cbn [skipn map]. constructor; [|constructor; [|constructor; [|constructor]]].
  - eapply (row_intro _ (Num (int_of "0")) (Num (dec_of (Some true) "0" "13273" None)) (Num (dec_of None "0" "" None)) (Num (dec_of None "0" "" None))); [|apply int_degree; [apply digits_b|]; reflexivity|reflexivity|reflexivity|reflexivity].
    item_tac "  "%string (Num (int_of "0")) "  -0.13273           0.                   0."%string.
    item_tac "  "%string (Num (dec_of (Some true) "0" "13273" None)) "           0.                   0."%string.
    item_tac "           "%string (Num (dec_of None "0" "" None)) "                   0."%string.
    item_tac "                   "%string (Num (dec_of None "0" "" None)) ""%string.
    apply shows_end; [gap_tac|no_i_tac].
  - eapply (row_intro _ (Num (int_of "1")) (Num (dec_of (Some true) "0" "28796165358324" None)) (Num (dec_of None "0" "" None)) (Num (dec_of None "1" "0283235526008" (Some "01"%string)))); [|apply int_degree; [apply digits_b|]; reflexivity|reflexivity|reflexivity|reflexivity].
    item_tac "  "%string (Num (int_of "1")) "  -0.28796165358324  0.    1.0283235526008D-01"%string.
    item_tac "  "%string (Num (dec_of (Some true) "0" "28796165358324" None)) "  0.    1.0283235526008D-01"%string.
    item_tac "  "%string (Num (dec_of None "0" "" None)) "    1.0283235526008D-01"%string.
    item_tac "    "%string (Num (dec_of None "1" "0283235526008" (Some "01"%string))) ""%string.
    apply shows_end; [gap_tac|no_i_tac].
  - eapply (row_intro _ (Num (int_of "2")) (Num (dec_of (Some true) "0" "99015777857079" None)) (Num (dec_of (Some true) "0" "30252982142510" None)) (Num (dec_of None "2" "3882296795977" (Some "02"%string)))); [|apply int_degree; [apply digits_b|]; reflexivity|reflexivity|reflexivity|reflexivity].
    item_tac "  "%string (Num (int_of "2")) "  -0.99015777857079  -0.30252982142510    2.3882296795977D-02"%string.
    item_tac "  "%string (Num (dec_of (Some true) "0" "99015777857079" None)) "  -0.30252982142510    2.3882296795977D-02"%string.
    item_tac "  "%string (Num (dec_of (Some true) "0" "30252982142510" None)) "    2.3882296795977D-02"%string.
    item_tac "    "%string (Num (dec_of None "2" "3882296795977" (Some "02"%string))) ""%string.
    apply shows_end; [gap_tac|no_i_tac].
Qed.
Example example_published : exists model citation, published 0 = Some ("love_numbers"%string, 2, false, model, citation).
Proof. eexists _, _. reflexivity. Qed.
