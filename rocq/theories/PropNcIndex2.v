(** C118, continued: the lines of an index file, remarks, letters of names, and writing that fails half way. *)
From Coq Require Import Reals Lra String Ascii Bool Permutation Sorted ZifyBool ZifyNat.
From Verif Require Import Base TimeModel Arr HarmModel AdjustProofs HarmProofs HarmProofs2 HarmProofs3 UtilModel NcModel NcIndexModel PropNc PropNc2 PropNc3 PropHarm PropNcIndex.
Close Scope Z_scope.
Close Scope R_scope.
Open Scope nat_scope.
Open Scope list_scope.

(** ** specification *)
(** the codes that end a line: line feed, vertical tab, form feed, carriage return, and the file, group and record separators *)
Definition ends_line (c : ascii) : Prop := let n := nat_of_ascii c in 10 <= n <= 13 \/ 28 <= n <= 30.
Definition in_line (l : text) : Prop := Forall (fun c => ~ ends_line c) l.
Definition CR : ascii := ascii_of_nat 13.
Definition LF : ascii := ascii_of_nat 10.
Definition line_end (e : text) : Prop := e = [CR; LF] \/ exists c, ends_line c /\ e = [c].
(** lines with their ends; after a lone carriage return the text does not go on with a line feed *)
Fixpoint lines (ls : list (text * text)) : Prop :=
  match ls with
  | [] => True
  | (l, e) :: r => in_line l /\ line_end e /\ (e = [CR] -> forall e', r = [] \/ hd ([], []) r <> ([], LF :: e')) /\ lines r
  end.
Definition joined (ls : list (text * text)) : text := flat_map (fun p => fst p ++ snd p) ls.
(** a line that names a file *)
Definition names_file (l : text) : Prop := exists c r, l = c :: r /\ c <> "#"%char /\ c <> "%"%char.
(** the file names of some lines, in their order *)
Inductive files_of : list text -> list text -> Prop :=
| FNil : files_of [] []
| FName l ls fs : names_file l -> files_of ls fs -> files_of (l :: ls) (l :: fs)
| FSkip l ls fs : ~ names_file l -> files_of ls fs -> files_of (l :: ls) fs.

Lemma sep_iff c : is_separator c = true <-> ends_line c.
Proof. unfold is_separator, ends_line. cbn [existsb]. rewrite !orb_true_iff, !Nat.eqb_eq. cbv zeta. split; [intros H|intros H]; lia. Qed.
Lemma clean_iff l : clean l <-> in_line l.
Proof. unfold clean, in_line. split; apply Forall_impl; intros c H; [intros X; apply sep_iff in X; congruence|]. apply not_true_is_false. intros X. now apply sep_iff in X. Qed.
Lemma walk l : in_line l -> forall cur s, splitlines_at cur (l ++ s) = splitlines_at (rev l ++ cur) s.
Proof.
  rewrite <- clean_iff. induction 1 as [|c l H F IH]; intros cur s; [reflexivity|]. cbn [app splitlines_at]. rewrite H, IH. cbn [rev]. now rewrite <- app_assoc.
Qed.
Lemma joined_head r : joined r = [] \/ (exists l e r' c t, r = (l, e) :: r' /\ joined r = c :: t) \/ exists e r', r = ([], e) :: r'.
Proof. destruct r as [|[l e] r]; [now left|]. right. destruct l as [|c l]; [right; eauto|left]. exists (c :: l), e, r, c, (l ++ e ++ joined r). split; [reflexivity|]. cbn. now rewrite <- app_assoc. Qed.
Lemma after_cr s cur : (forall s', s <> LF :: s') -> splitlines_at cur (CR :: s) = rev cur :: splitlines_at [] s.
Proof.
  intros H. cbn [splitlines_at]. change (is_separator CR) with true. cbn iota. f_equal. change (nat_of_ascii CR) with 13. cbn iota. destruct s as [|d s]; [reflexivity|].
  destruct (Nat.eqb_spec (nat_of_ascii d) 10) as [E|]; [|reflexivity]. exfalso. apply (H s). f_equal. rewrite <- (ascii_nat_embedding d), E. reflexivity.
Qed.
Lemma one_end c s cur : ends_line c -> c <> CR -> splitlines_at cur (c :: s) = rev cur :: splitlines_at [] s.
Proof.
  intros E N. cbn [splitlines_at]. rewrite (proj2 (sep_iff c) E). f_equal.
  assert (X : nat_of_ascii c <> 13) by (intros X; apply N; rewrite <- (ascii_nat_embedding c), X; reflexivity).
  destruct (nat_of_ascii c) as [|[|[|[|[|[|[|[|[|[|[|[|[|[|n]]]]]]]]]]]]]]; try reflexivity. congruence.
Qed.
Lemma no_lf_head r last : lines r -> in_line last -> (forall e', r = [] \/ hd ([], []) r <> ([], LF :: e')) -> forall s', joined r ++ last <> LF :: s'.
Proof.
  intros L IL H s' E. destruct r as [|[l e] r].
  - cbn in E. subst last. inversion IL as [|? ? X]. apply X. left. cbn. lia.
  - cbn [lines] in L. destruct L as (LI & LE & _). cbn [joined flat_map fst snd] in E. rewrite <- !app_assoc in E. destruct l as [|c l].
    + cbn [app] in E. destruct LE as [->|(c & _ & ->)]; cbn [app] in E; injection E as E1 E2; [discriminate|]. subst c. destruct (H []) as [X|X]; [discriminate|]. now cbn in X.
    + cbn [app] in E. injection E as -> _. inversion LI as [|? ? X]. apply X. left. cbn. lia.
Qed.
Lemma splitlines_ok ls last : lines ls -> in_line last -> splitlines (joined ls ++ last) = map fst ls ++ match last with [] => [] | _ => [last] end.
Proof.
  unfold splitlines. induction ls as [|[l e] r IH]; intros L IL.
  - cbn [joined flat_map map app]. rewrite <- (app_nil_r last) at 1. rewrite (walk _ IL). rewrite app_nil_r. cbn [splitlines_at]. rewrite rev_involutive. destruct last as [|c last]; [reflexivity|]. destruct (rev (c :: last)) eqn:E; [|reflexivity]. apply (f_equal (@List.length _)) in E. rewrite rev_length in E. discriminate.
  - cbn [lines] in L. destruct L as (LI & LE & NX & LR). cbn [joined flat_map fst snd map]. rewrite <- !app_assoc. rewrite (walk _ LI), app_nil_r. fold (joined r). cbn [app]. rewrite <- (IH LR IL). set (s := joined r ++ last) in *.
    assert (G : splitlines_at (rev l) (e ++ s) = rev (rev l) :: splitlines_at [] s); [|rewrite G; now rewrite rev_involutive].
    destruct LE as [->|(c & EC & ->)]; [reflexivity|]. cbn [app]. destruct (Ascii.eqb_spec c CR) as [->|NC]; [|now apply one_end]. apply after_cr. subst s. apply no_lf_head; [exact LR|exact IL|]. apply NX. reflexivity.
Qed.
Lemma entry_iff l : is_entry l = true <-> names_file l.
Proof.
  unfold is_entry, names_file. destruct l as [|c r]; [split; [discriminate|intros (? & ? & E & _); discriminate]|]. rewrite negb_true_iff, orb_false_iff, !Ascii.eqb_neq. split; [intros (A & B); eauto|]. intros (d & r' & [= -> ->] & A & B). now split.
Qed.
Lemma filter_files ls fs : files_of ls fs -> filter is_entry ls = fs.
Proof.
  induction 1 as [|l ls fs N _ IH|l ls fs N _ IH]; [reflexivity| |]; cbn [filter].
  - rewrite (proj2 (entry_iff l) N). now f_equal.
  - destruct (is_entry l) eqn:E; [|exact IH]. apply entry_iff in E. tauto.
Qed.

(** ** C118: every name of an index file is read once and in order, whatever ends the lines and with any remarks between them *)
Theorem C118_lines : forall home cwd ls fmt order rows last names fs, lines rows -> in_line last -> files_of (map fst rows ++ [last]) names ->
  from_index home cwd ls (Some fmt) order (joined rows ++ last) fs = (do hs <- mapM (read_entry home cwd ls fs) names; from_list order hs).
Proof.
  intros home cwd ls fmt order rows last names fs L IL F. unfold from_index. rewrite (splitlines_ok _ _ L IL). apply filter_files in F. rewrite <- F. rewrite !filter_app. now destruct last.
Qed.
Print Assumptions C118_lines.
Theorem C118_no_files : forall home cwd ls fmt order rows fs, lines rows -> files_of (map fst rows) [] ->
  from_index home cwd ls (Some fmt) order (joined rows) fs = from_list order [].
Proof. intros home cwd ls fmt order rows fs L F. rewrite <- (app_nil_r (joined rows)). rewrite (C118_lines home cwd ls fmt order rows [] []); [reflexivity|exact L|constructor|]. clear L. induction rows as [|r rows IH]; cbn in *; [constructor; [intros (? & ? & X & _); discriminate|constructor]|]. inversion F; subst. constructor; [assumption|now apply IH]. Qed.

(** ** names that differ in their letters only: equal, or capital and small letter of one another *)
Definition other_case (c d : ascii) : Prop := let a := nat_of_ascii c in let b := nat_of_ascii d in (65 <= a <= 90 /\ b = a + 32) \/ (65 <= b <= 90 /\ a = b + 32).
Lemma lower_iff c d : lower c = lower d <-> c = d \/ other_case c d.
Proof.
  assert (E : c = d <-> nat_of_ascii c = nat_of_ascii d) by (split; [now intros ->|]; intros H; rewrite <- (ascii_nat_embedding c), H; apply ascii_nat_embedding).
  rewrite E. unfold lower, other_case. cbv zeta. destruct ((65 <=? nat_of_ascii c) && (nat_of_ascii c <=? 90)) eqn:A, ((65 <=? nat_of_ascii d) && (nat_of_ascii d <=? 90)) eqn:B; lia.
Qed.
Theorem C118_letters : forall a b, same_letters a b <-> Forall2 (fun c d => c = d \/ other_case c d) a b.
Proof. intros a b. unfold same_letters. split; intros H; (induction H as [|c d a b E _ IH]; constructor; [now apply lower_iff|exact IH]). Qed.
Theorem C118_pattern : forall n f, begins n f = true <-> exists a b, f = a ++ b /\ Forall2 (fun c d => (c = "."%char /\ d <> LF) \/ c = d \/ other_case c d) n a.
Proof.
  intros n f. rewrite begins_iff. unfold covers. assert (G : forall c d, stands_at c d <-> (c = "."%char /\ d <> LF) \/ c = d \/ other_case c d).
  { intros c d. unfold stands_at. rewrite lower_iff. assert (X : nat_of_ascii d <> 10 <-> d <> LF); [|rewrite X; tauto]. split; intros H K; apply H; [now rewrite K|]. rewrite <- (ascii_nat_embedding d), K. reflexivity. }
  split; intros (a & b & E & F); exists a, b; (split; [exact E|]); clear E; (induction F as [|c d ? ? K _ IH]; constructor; [now apply G|exact IH]).
Qed.
(** a missing file: the last of the names in the directory that fit is taken *)
Theorem C118_last_fits : forall ls fs d n before f more, fs (key (d ++ slash :: n)) = None -> existsb (Ascii.eqb slash) n = false -> existsb special n = false ->
  ls (d ++ [slash]) = before ++ f :: more -> covers n f -> (forall g, In g more -> ~ covers n g) -> resolve ls fs (d ++ slash :: n) = Ok (d ++ slash :: f).
Proof.
  intros ls fs d n before f more H S SP L C N. unfold resolve. rewrite H, (split_name_ok d n S), SP, L, filter_app. cbn [filter]. rewrite (proj2 (begins_iff n f) C).
  assert (E : filter (begins n) more = []). { clear - N. induction more as [|g more IH]; [reflexivity|]. cbn [filter]. destruct (begins n g) eqn:B; [|apply IH; intros x X; apply N; now right]. apply begins_iff in B. now apply (N g (or_introl eq_refl)) in B. }
  rewrite E, rev_app_distr. cbn [rev app]. now rewrite <- app_assoc.
Qed.

(** ** a file that cannot be written stops the call: the index already names it, and the files before it are there *)
Theorem C118_stopped : forall home cwd k s o x n ts ms names f more fs fs1 t1 fs2 x2 e, series (o_h x) n ts ms -> List.length names < n ->
  to_index home cwd (Some k) s o x names 0 fs = (t1, fs1, Ok tt) ->
  write_file k s o (mkobj (slice_of (o_h x) (List.length names) ts ms) []) (key (absolute home cwd f)) fs1 = (fs2, x2, Err e) ->
  to_index home cwd (Some k) s o x (names ++ f :: more) 0 fs = (flat_map (fun g => compress home cwd g ++ [LF]) (names ++ [f]), fs2, Err e).
Proof.
  intros home cwd k s o x n ts ms names f more fs fs1 t1 fs2 x2 e SE LN E W.
  pose proof SE as ((_ & _ & _ & W6) & HM & D & T & M & _). rewrite D in W6. destruct W6 as (ts' & ms' & T' & M' & LT & LM). rewrite T in T'. rewrite M in M'. injection T' as <-. injection M' as <-.
  assert (G : forall names i fs t1, to_index home cwd (Some k) s o x names i fs = (t1, fs1, Ok tt) -> i + List.length names < n ->
    write_file k s o (mkobj (slice_of (o_h x) (i + List.length names) ts ms) []) (key (absolute home cwd f)) fs1 = (fs2, x2, Err e) ->
    to_index home cwd (Some k) s o x (names ++ f :: more) i fs = (flat_map (fun g => compress home cwd g ++ [LF]) (names ++ [f]), fs2, Err e)); [|apply (G names 0 fs t1 E LN W)].
  clear names LN E W. clear fs t1. induction names as [|g names IH]; intros i fs t1 E L W.
  - cbn [to_index] in E. injection E as <- <-. cbn [app to_index flat_map List.length] in *. rewrite Nat.add_0_r in W. rewrite (index_spec (o_h x) n ts ms i D T M LT LM) by lia. rewrite W. now rewrite app_nil_r.
  - cbn [app to_index flat_map List.length] in *. destruct (index (o_h x) (Z.of_nat i)) as [h|e0]; [|discriminate].
    destruct (write_file k s o (mkobj h []) (key (absolute home cwd g)) fs) as [[fs' x'] [u|e0]]; [|discriminate].
    destruct (to_index home cwd (Some k) s o x names (Datatypes.S i) fs') as [[t2 fs''] r2] eqn:E2. injection E as <- -> ->.
    rewrite (IH (Datatypes.S i) fs' t2 E2); [reflexivity|lia|]. now replace (Datatypes.S i + List.length names) with (i + Datatypes.S (List.length names)) by lia.
Qed.
Print Assumptions C118_stopped.
(** so a file that must not be overwritten stays as it is, but the files before it are replaced or new *)
Theorem C118_not_overwritten : forall home cwd s o x n ts ms f g more fs v, place home cwd -> series (o_h x) n ts ms -> plain o -> w_date o = true -> w_months_name o = "month"%string -> w_clobber o = false -> 2 <= n ->
  absolute home cwd f <> absolute home cwd g -> fs (key (absolute home cwd f)) = None -> fs (key (absolute home cwd g)) = Some v ->
  exists fs2 e, to_index home cwd (Some HDF5) s o x (f :: g :: more) 0 fs = (compress home cwd f ++ [LF] ++ compress home cwd g ++ [LF], fs2, Err e) /\
    fs2 (key (absolute home cwd g)) = Some v /\ fs2 (key (absolute home cwd f)) <> None.
Proof.
  intros home cwd s o x n ts ms f g more fs v PL SE P DT MN CL N2 NE FF FG.
  destruct (C117_roundtrip HDF5 s o (mkobj (slice_of (o_h x) 0 ts ms) []) (key (absolute home cwd f)) fs [nth 0 ts 0%R] [nth 0 ms 0%Z]) as (fs1 & x1 & y & W & OT & R & _);
    [apply (slice_dated _ n); [exact SE|lia]|exact P|exact DT|exact MN|now right|split; constructor|].
  pose proof SE as ((_ & _ & _ & W6) & HM & D & T & M & _). rewrite D in W6. destruct W6 as (ts' & ms' & T' & M' & LT & LM). rewrite T in T'. rewrite M in M'. injection T' as <-. injection M' as <-.
  assert (FG1 : fs1 (key (absolute home cwd g)) = Some v). { rewrite OT; [exact FG|]. intros X. apply key_inj in X. congruence. }
  assert (E1 : to_index home cwd (Some HDF5) s o x [f] 0 fs = (compress home cwd f ++ [LF], fs1, Ok tt)). { cbn [to_index]. rewrite (index_spec (o_h x) n ts ms 0 D T M LT LM) by lia. rewrite W. now rewrite app_nil_r. }
  destruct (C117_no_clobber HDF5 s o (mkobj (slice_of (o_h x) 1 ts ms) []) (key (absolute home cwd g)) fs1 v CL FG1) as (fs2 & x2 & e & W2 & U); [discriminate|].
  pose proof (C118_stopped home cwd HDF5 s o x n ts ms [f] g more fs fs1 _ fs2 x2 e SE N2 E1 W2) as Z. cbn [app flat_map] in Z. rewrite app_nil_r, <- !app_assoc in Z. exists fs2, e. split; [exact Z|]. rewrite !U. split; [exact FG1|].
  unfold read_file in R. destruct (fs1 (key (absolute home cwd f))); [discriminate|discriminate].
Qed.
Print Assumptions C118_not_overwritten.

Example example_lines : let t := [(chars "~/a.nc", [CR; LF]); ([], [LF]); (chars "# b.nc", [CR]); (chars "/c.nc", [LF])] in
  lines t /\ in_line (chars "%d") /\ files_of (map fst t ++ [chars "%d"]) [chars "~/a.nc"; chars "/c.nc"].
Proof.
  assert (H : forall s, forallb (fun c => negb (is_separator c)) (chars s) = true -> in_line (chars s)). { intros s E. apply clean_iff. apply Forall_forall. rewrite forallb_forall in E. intros c I. apply negb_true_iff. auto. }
  split; [|split; [apply H; reflexivity|]].
  - cbn [lines]. repeat match goal with |- _ /\ _ => split end; try (apply H; reflexivity); try (now left); try exact Logic.I; try discriminate; try (apply Forall_nil); try (right; eexists; split; [|reflexivity]; left; cbn; lia).
    intros _ e'. right. discriminate.
  - apply FName; [do 2 eexists; split; [reflexivity|split; discriminate]|]. apply FSkip; [intros (? & ? & X & _); discriminate|]. apply FSkip; [intros (c & r & X & Y & _); injection X as <- _; now apply Y|].
    apply FName; [do 2 eexists; split; [reflexivity|split; discriminate]|]. apply FSkip; [intros (c & r & X & _ & Y); injection X as <- _; now apply Y|]. constructor.
Qed.
