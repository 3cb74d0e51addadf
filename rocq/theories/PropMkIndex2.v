(** C121, continued: the other patterns, and the lines of the index files *)
From Coq Require Import Ascii String List Arith Lia Bool ZArith Sorting.Sorted Sorting.Permutation ZifyBool ZifyNat.
From Verif Require Import Base UtilModel TextModel ReduceModel ReduceProofs NcIndexModel NameModel NameProofs IndexModel MkIndexModel PropName PropName2 PropMkIndex.
Import ListNotations.
Close Scope Z_scope.
Open Scope nat_scope.
Open Scope list_scope.

(** ** CNES, laser ranging, other products, errors *)
Theorem C121_cnes : forall drel dset m sol v f, In dset ["GAA"; "GAB"; "GAC"; "GAD"; "GSM"]%string -> a_mission m -> one_line f ->
  exists r, compile_pattern "CNES" drel dset m sol v = Ok r /\
  (matches r f = true <-> field_name dset number (fun y => exists s t, plain_name s /\ (t = [] \/ t = chars ".txt") /\ y = chars "GRGS_" ++ s ++ t) f).
Proof.
  intros drel dset m sol v f ID AM NL. exists (monthly_rx dset some_digits [lit "GRGS_"; Group name_chars; Maybe (Group (lit ".txt"))]). split.
  - unfold compile_pattern. rewrite (mission_checked m AM). cbn in ID. repeat destruct ID as [<-|ID]; try destruct ID; reflexivity.
  - rewrite monthly_iff by (reflexivity || exact NL). apply field_ext; [apply den_digits|]. intros y. cbn [spells]. split.
    + intros (? & ? & -> & H1 & ? & ? & -> & H2 & ? & ? & -> & H3 & ->). apply den_lit in H1. apply den_name in H2. rewrite den_maybe, den_group, den_lit in H3. subst. eexists _, _. split; [exact H2|]. split; [destruct H3; [right|left]; eassumption|]. now rewrite app_nil_r.
    + intros (s & t & PS & T & ->). exists (chars "GRGS_"), (s ++ t). split; [reflexivity|]. split; [now apply den_lit|]. exists s, t. split; [reflexivity|]. split; [now apply den_name|]. exists t, []. rewrite app_nil_r. split; [reflexivity|]. split; [|reflexivity]. rewrite den_maybe, den_group, den_lit. tauto.
Qed.
(** the releases with a pattern of their own *)
Definition own_pattern (proc drel dset : string) : Prop :=
  (proc = "JPL" /\ In drel ["RL04"; "RL05"] \/ dset = "GSM" /\ (In drel ["RL04"; "RL05"; "RL06"] \/ proc = "CSR" /\ exists a, chars drel = (a ++ chars "LRI")%list))%string.
Lemma ends_iff s w : ends_with s w = true <-> exists a, s = a ++ w.
Proof.
  unfold ends_with. rewrite str_eqb_iff. split.
  - intros H. exists (firstn (List.length s - List.length w) s). rewrite <- H at 2. now rewrite firstn_skipn.
  - intros (a & ->). rewrite app_length. replace (List.length a + List.length w - List.length w) with (List.length a) by lia. now rewrite skipn_app, skipn_all, Nat.sub_diag.
Qed.
Lemma own_false proc drel dset (m : option string) sol v : In proc ["CSR"; "GFZ"; "JPL"]%string -> In dset ["GAA"; "GAB"; "GAC"; "GAD"; "GSM"]%string -> a_mission m -> ~ own_pattern proc drel dset ->
  compile_pattern proc drel dset m sol v = match m with
    | Some w => Ok (seqs [lit dset; lit "-2_"; Group name_chars; lit "_"; lit w; lit "_"; Group name_chars; gz; Eos])
    | None => Ok (seqs [lit dset; lit "-2_"; Group name_chars; gz; Eos]) end.
Proof.
  intros IP ID AM NO. unfold compile_pattern. rewrite (mission_checked m AM). replace (negb (one_of proc _)) with false by (cbn in IP; repeat destruct IP as [<-|IP]; try destruct IP; reflexivity).
  replace (negb (one_of dset _)) with false by (cbn in ID; repeat destruct ID as [<-|ID]; try destruct ID; reflexivity). cbv zeta.
  assert (OF : forall s l, one_of s l = true -> In s l). { intros s l H. apply existsb_exists in H as (u & I & E). apply String.eqb_eq in E. now subst u. }
  assert (F1 : forall l, (forall s, In s l -> In s ["RL04"; "RL05"; "RL06"]%string) -> String.eqb dset "GSM" && String.eqb proc "CSR" && one_of drel l = false).
  { intros l SUB. apply not_true_is_false. intros E. apply andb_true_iff in E as (E & E3). apply andb_true_iff in E as (E1 & _). apply String.eqb_eq in E1. apply OF in E3. apply NO. right. split; [exact E1|]. left. now apply SUB. }
  assert (F2 : forall q s, In s ["RL04"; "RL05"; "RL06"]%string -> String.eqb dset "GSM" && String.eqb proc q && String.eqb drel s = false).
  { intros q s I. apply not_true_is_false. intros E. apply andb_true_iff in E as (E & E3). apply andb_true_iff in E as (E1 & _). apply String.eqb_eq in E1. apply String.eqb_eq in E3. subst s. apply NO. right. split; [exact E1|]. now left. }
  assert (F3 : String.eqb dset "GSM" && String.eqb proc "CSR" && ends_with (chars drel) (chars "LRI") = false).
  { apply not_true_is_false. intros E. apply andb_true_iff in E as (E & E3). apply andb_true_iff in E as (E1 & E2). apply String.eqb_eq in E1. apply String.eqb_eq in E2. apply ends_iff in E3. apply NO. right. split; [exact E1|]. now right. }
  assert (F4 : String.eqb proc "JPL" && one_of drel ["RL04"; "RL05"]%string = false).
  { apply not_true_is_false. intros E. apply andb_true_iff in E as (E1 & E2). apply String.eqb_eq in E1. apply OF in E2. apply NO. left. split; [exact E1|exact E2]. }
  assert (F5 : String.eqb proc "CNES" = false) by (cbn in IP; repeat destruct IP as [<-|IP]; try destruct IP; reflexivity).
  rewrite (F1 ["RL04"; "RL05"]%string) by (cbn; tauto). rewrite !F2 by (cbn; tauto). rewrite F3, F4, F5.
  reflexivity.
Qed.
(** all other products: anything made of letters, digits, bars and dashes, with the mission between bars if it is given *)
Theorem C121_other_products : forall proc drel dset m sol v f, In proc ["CSR"; "GFZ"; "JPL"]%string -> In dset ["GAA"; "GAB"; "GAC"; "GAD"; "GSM"]%string -> a_mission m -> ~ own_pattern proc drel dset -> one_line f ->
  exists r, compile_pattern proc drel dset m sol v = Ok r /\ (matches r f = true <-> exists y z, f = chars dset ++ chars "-2_" ++ y ++ z /\ compressed z /\
    match m with Some w => exists s t, plain_name s /\ plain_name t /\ y = s ++ chars "_" ++ chars w ++ chars "_" ++ t | None => plain_name y end).
Proof.
  intros proc drel dset m sol v f IP ID AM NO NL. rewrite own_false by assumption. destruct m as [w|].
  - eexists. split; [reflexivity|]. change [lit dset; lit "-2_"; Group name_chars; lit "_"; lit w; lit "_"; Group name_chars; gz; Eos] with ([lit dset; lit "-2_"; Group name_chars; lit "_"; lit w; lit "_"; Group name_chars] ++ [gz; Eos]).
    rewrite matches_iff by (reflexivity || exact NL). cbn [spells]. split.
    + intros (y & z & -> & H & C). destruct H as (? & ? & -> & H1 & ? & ? & -> & H2 & ? & ? & -> & H3 & ? & ? & -> & H4 & ? & ? & -> & H5 & ? & ? & -> & H6 & ? & ? & -> & H7 & ->).
      apply den_lit in H1. apply den_lit in H2. apply den_name in H3. apply den_lit in H4. apply den_lit in H5. apply den_lit in H6. apply den_name in H7. subst. rewrite app_nil_r.
      match goal with |- context [?u ++ chars "_" ++ chars w ++ chars "_" ++ ?v] => exists (u ++ chars "_" ++ chars w ++ chars "_" ++ v), z; rewrite <- !app_assoc; split; [reflexivity|]; split; [exact C|]; exists u, v end. auto.
    + intros (y & z & -> & C & s & t & PS & PT & ->). exists (chars dset ++ chars "-2_" ++ s ++ chars "_" ++ chars w ++ chars "_" ++ t), z. rewrite <- !app_assoc. split; [reflexivity|]. split; [|exact C].
      do 6 (eexists _, _; split; [reflexivity|]; split; [first [now apply den_lit|now apply den_name]|]). exists t, []. rewrite app_nil_r. split; [reflexivity|]. split; [now apply den_name|reflexivity].
  - eexists. split; [reflexivity|]. change [lit dset; lit "-2_"; Group name_chars; gz; Eos] with ([lit dset; lit "-2_"; Group name_chars] ++ [gz; Eos]). rewrite matches_iff by (reflexivity || exact NL). cbn [spells]. split.
    + intros (y & z & -> & H & C). destruct H as (? & ? & -> & H1 & ? & ? & -> & H2 & ? & ? & -> & H3 & ->). apply den_lit in H1. apply den_lit in H2. apply den_name in H3. subst. rewrite app_nil_r, <- !app_assoc. eexists _, z. split; [reflexivity|]. auto.
    + intros (y & z & -> & C & PY). exists (chars dset ++ chars "-2_" ++ y), z. rewrite <- !app_assoc. split; [reflexivity|]. split; [|exact C]. do 2 (eexists _, _; split; [reflexivity|]; split; [now apply den_lit|]). exists y, []. rewrite app_nil_r. split; [reflexivity|]. split; [now apply den_name|reflexivity].
Qed.
(** unknown missions, centres and products are refused *)
Theorem C121_refused : forall proc drel dset m sol v, (exists w, m = Some w /\ w <> ""%string /\ ~ In w ["GRAC"; "GRFO"]%string) \/ ~ In proc ["CNES"; "CSR"; "GFZ"; "JPL"]%string \/ ~ In dset ["GAA"; "GAB"; "GAC"; "GAD"; "GSM"]%string ->
  compile_pattern proc drel dset m sol v = Err ValueError.
Proof.
  intros proc drel dset m sol v H. assert (OF : forall s l, ~ In s l -> one_of s l = false). { intros s l N. apply not_true_is_false. intros X. apply existsb_exists in X as (u & I & E). apply String.eqb_eq in E. now subst u. }
  unfold compile_pattern. destruct H as [(w & -> & NE & NI)|[N|N]].
  - rewrite (OF w _ NI). apply String.eqb_neq in NE. now rewrite NE.
  - rewrite (OF proc _ N). now destruct (match m with Some _ => _ | None => false end).
  - rewrite (OF dset _ N). destruct (match m with Some _ => _ | None => false end); [reflexivity|]. now destruct (negb (one_of proc _)).
Qed.
(** laser ranging solutions: release and version are the numbers of the name of the release *)
Theorem C121_laser : forall rel ver m sol v f u w, (exists n, number_of (S n) rel) -> (exists n, number_of (S n) ver) -> padded rel u -> padded ver w -> In m ["GRAC"; "GRFO"]%string -> one_line f ->
  exists r, compile_pattern "CSR" (string_of_list_ascii (chars "RL" ++ rel ++ chars "." ++ ver ++ chars "LRI")) "GSM" (Some m) sol v = Ok r /\
  (matches r f = true <-> field_name "GSM" (fun x => x = chars m) (fun y => y = chars "UTCSR_EA01_" ++ u ++ w) f).
Proof.
  intros rel ver m sol v f u w (n1 & N1) (n2 & N2) PU PW IM NL. set (drel := string_of_list_ascii _). assert (CD : chars drel = chars "RL" ++ rel ++ chars "." ++ ver ++ chars "LRI") by (unfold chars, drel; apply list_ascii_of_string_of_list_ascii).
  assert (AM : a_mission (Some m)) by (intros x E; injection E as <-; exact IM).
  assert (LM : last_match decimal_pattern (chars drel) = Ok [rel; ver]).
  { rewrite CD. assert (MT : match_at decimal_pattern (rel ++ chars "." ++ ver ++ chars "LRI") = Some ([rel; ver], chars "LRI")).
    { unfold match_at, decimal_pattern. cbn [seqs]. rewrite sq_run, group_run. apply (some_digits_ok n1); [exact N1|reflexivity|]. cbv beta. rewrite sq_run, lit_ok, group_run. apply (some_digits_ok n2); [exact N2|reflexivity|]. reflexivity. }
    assert (NM : forall s, (match s with c :: _ => is_digit c = false | [] => True end) -> match_at decimal_pattern s = None).
    { intros s H. destruct (match_at decimal_pattern s) as [x|] eqn:E; [|reflexivity]. exfalso. apply run_sound in E as (g & a & b & -> & L & _). unfold decimal_pattern in L. cbn [seqs] in L. apply lang_sq in L as (g1 & g2 & a1 & a2 & -> & -> & L1 & _). apply lang_group in L1 as (g' & _ & L1). apply lang_some_digits in L1 as (_ & n & L & F).
      destruct a1 as [|c a1]; [discriminate|]. cbn in H. inversion F; subst. congruence. }
    unfold last_match, find_groups. cbn [app chars list_ascii_of_string List.length]. cbn [findall_from]. rewrite !NM by reflexivity.
    set (q := rel ++ "."%char :: ver ++ ["L"%char; "R"%char; "I"%char]). assert (FU : 3 <= List.length q) by (unfold q; rewrite app_length; cbn [List.length]; rewrite app_length; cbn; lia).
    change (rel ++ chars "." ++ ver ++ chars "LRI") with q in MT. destruct (List.length q) as [|[|[|k]]]; try lia. cbn [findall_from]. rewrite MT. rewrite !NM by reflexivity. cbn [chars list_ascii_of_string]. rewrite !NM by reflexivity. destruct k; cbn [findall_from]; rewrite ?NM by exact Logic.I; reflexivity. }
  exists (monthly_rx "GSM" (lit m) [lit "UTCSR_"; lit "EA01"; lit "_"; Word Ascii.eqb u; Word Ascii.eqb w]). split.
  - unfold compile_pattern. rewrite (mission_checked _ AM).
    assert (NR : forall s, In s ["RL04"; "RL05"; "RL06"]%string -> String.eqb drel s = false). { intros s I. apply String.eqb_neq. intros E. assert (X : last_match decimal_pattern (chars s) = Ok [rel; ver]) by now rewrite <- E. cbn in I. repeat destruct I as [<-|I]; try destruct I; vm_compute in X; discriminate. }
    assert (EW : ends_with (chars drel) (chars "LRI") = true). { apply ends_iff. exists (chars "RL" ++ rel ++ chars "." ++ ver). rewrite CD, <- !app_assoc. reflexivity. }
    unfold one_of. cbn [existsb]. rewrite !NR by (cbn; auto). rewrite EW. cbn [negb andb orb String.eqb Ascii.eqb Bool.eqb]. rewrite LM. cbn [bind mission_text]. now rewrite (zfill_padded _ _ PU), (zfill_padded _ _ PW).
  - rewrite monthly_iff by (reflexivity || exact NL). apply field_ext; [intros x; apply den_lit|]. intros y. cbn [spells]. split.
    + intros (? & ? & -> & H1 & ? & ? & -> & H2 & ? & ? & -> & H3 & ? & ? & -> & H4 & ? & ? & -> & H5 & ->). apply den_lit in H1. apply den_lit in H2. apply den_lit in H3. apply den_word in H4. apply den_word in H5. subst. rewrite app_nil_r. reflexivity.
    + intros ->. exists (chars "UTCSR_"), (chars "EA01" ++ chars "_" ++ u ++ w). split; [reflexivity|]. split; [now apply den_lit|]. do 2 (eexists _, _; split; [reflexivity|]; split; [now apply den_lit|]). exists u, w. split; [reflexivity|]. split; [now apply den_word|]. exists w, []. rewrite app_nil_r. split; [reflexivity|]. split; [now apply den_word|reflexivity].
Qed.
Print Assumptions C121_laser.
