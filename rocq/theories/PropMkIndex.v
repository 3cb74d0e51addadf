(** C121: the names found by compile_regex_pattern, and the index files of make_grace_index (MkIndexModel) *)
From Coq Require Import Ascii String List Arith Lia Bool ZArith Sorting.Sorted Sorting.Permutation ZifyBool ZifyNat.
From Verif Require Import Base UtilModel TextModel ReduceModel ReduceProofs NcIndexModel NameModel NameProofs IndexModel MkIndexModel PropName PropName2.
From Verif Require PropName3.
Import ListNotations.
Close Scope Z_scope.
Open Scope nat_scope.
Open Scope list_scope.

(** ** specification *)
Definition number (d : text) : Prop := d <> [] /\ Forall (fun c => is_digit c = true) d.
(** a compressed file or not *)
Definition compressed (z : text) : Prop := z = [] \/ z = chars ".gz".
(** GSM-2_2002095-2002120_aux_rest, rest.gz *)
Definition field_name (dset : string) (aux : text -> Prop) (rest : text -> Prop) (f : text) : Prop :=
  exists a b x y z, number a /\ number b /\ aux x /\ rest y /\ compressed z /\ f = chars dset ++ chars "-2_" ++ a ++ chars "-" ++ b ++ chars "_" ++ x ++ chars "_" ++ y ++ z.
(** letters, digits, bars and dashes *)
Definition plain_name (s : text) : Prop := s <> [] /\ forall c, In c s -> In c (chars "abcdefghijklmnopqrstuvwxyzABCDEFGHIJKLMNOPQRSTUVWXYZ0123456789_-").

(** ** the language of a pattern that ends with (\.gz)?$ *)
Fixpoint no_end (r : rx) : bool := match r with Sq a b | Or a b => no_end a && no_end b | Maybe a | Group a => no_end a | Eos => false | _ => true end.
Lemma lang_any_rest r : no_end r = true -> forall g a b b', lang r g a b -> lang r g a b'.
Proof.
  induction r as [p|p|n p|same w|x IHx y IHy|x IHx y IHy|x IHx|x IHx|]; cbn [no_end lang]; intros P g a b b' L; try exact L.
  - apply andb_true_iff in P as (P1 & P2). destruct L as (g1 & g2 & a1 & a2 & E1 & E2 & L1 & L2). exists g1, g2, a1, a2. repeat split; auto; [eapply IHx|eapply IHy]; eauto.
  - apply andb_true_iff in P as (P1 & P2). destruct L as [(g1 & E & L)|(g2 & E & L)]; [left; exists g1|right; exists g2]; (split; [exact E|]); [eapply IHx|eapply IHy]; eauto.
  - destruct L as [L|L]; [left; eapply IHx; eauto|right; exact L].
  - destruct L as (g' & E & L). exists g'. split; [exact E|]. eapply IHx; eauto.
  - discriminate.
Qed.
Definition denotes (r : rx) (a : text) : Prop := exists g, lang r g a [].
Fixpoint spells (l : list rx) (a : text) : Prop := match l with [] => a = [] | r :: l => exists a1 a2, a = a1 ++ a2 /\ denotes r a1 /\ spells l a2 end.
Lemma seqs_cons r l : l <> [] -> seqs (r :: l) = Sq r (seqs l).
Proof. destruct l; [congruence|reflexivity]. Qed.
Lemma lang_gz g a b : lang (seqs [gz; Eos]) g a b -> compressed a /\ (b = [] \/ b = [newline]).
Proof.
  cbn [seqs]. intros L. apply lang_sq in L as (g1 & g2 & a1 & a2 & -> & -> & L1 & (_ & -> & B)). rewrite app_nil_r. split; [|exact B]. apply lang_maybe in L1 as [L1|(_ & ->)]; [|now left]. apply lang_group in L1 as (g' & _ & L1). apply lang_lit in L1 as (_ & ->). now right.
Qed.
Lemma gz_lang a : compressed a -> exists g, lang (seqs [gz; Eos]) g a [].
Proof.
  intros [->| ->].
  - exists [[]]. cbn [seqs lang]. exists [[]], [], [], []. repeat split; auto. right. auto.
  - exists [chars ".gz"]. cbn [seqs lang]. exists [chars ".gz"], [], (chars ".gz"), []. repeat split; auto. left. exists []. split; [reflexivity|]. now apply lang_lit.
Qed.
Lemma spells_sound l : forallb no_end l = true -> forall g a b, lang (seqs (l ++ [gz; Eos])) g a b -> exists y z, a = y ++ z /\ spells l y /\ compressed z /\ (b = [] \/ b = [newline]).
Proof.
  induction l as [|r l IH]; cbn [forallb app]; intros P g a b L.
  - apply lang_gz in L as (C & B). exists [], a. repeat split; auto.
  - apply andb_true_iff in P as (P1 & P2). rewrite seqs_cons in L by (destruct l; discriminate). apply lang_sq in L as (g1 & g2 & a1 & a2 & -> & -> & L1 & L2). destruct (IH P2 _ _ _ L2) as (y & z & -> & SY & C & B).
    exists (a1 ++ y), z. rewrite <- app_assoc. repeat split; auto. exists a1, y. repeat split; auto. exists g1. eapply lang_any_rest; eauto.
Qed.
Lemma spells_complete l : forallb no_end l = true -> forall y z, spells l y -> compressed z -> exists g, lang (seqs (l ++ [gz; Eos])) g (y ++ z) [].
Proof.
  induction l as [|r l IH]; cbn [forallb app spells]; intros P y z SY C.
  - subst y. now apply gz_lang.
  - apply andb_true_iff in P as (P1 & P2). destruct SY as (a1 & a2 & -> & (g1 & L1) & SY). destruct (IH P2 _ _ SY C) as (g2 & L2). exists (g1 ++ g2). rewrite seqs_cons by (destruct l; discriminate). cbn [lang]. exists g1, g2, a1, (a2 ++ z). rewrite <- app_assoc. repeat split; auto. eapply lang_any_rest; eauto.
Qed.
Lemma matches_iff l f : forallb no_end l = true -> one_line f -> (matches (seqs (l ++ [gz; Eos])) f = true <-> exists y z, f = y ++ z /\ spells l y /\ compressed z).
Proof.
  intros P NL. unfold matches, match_at. destruct (run _ f _) as [x|] eqn:E.
  - split; [intros _|reflexivity]. apply run_sound in E as (g & a & b & -> & L & _). destruct (spells_sound l P _ _ _ L) as (y & z & -> & SY & C & B). assert (b = []) as ->; [|exists y, z; rewrite app_nil_r; auto].
    destruct B as [->| ->]; [reflexivity|]. exfalso. apply Forall_app in NL as (_ & NL). inversion NL. congruence.
  - split; [discriminate|]. intros (y & z & -> & SY & C). destruct (spells_complete l P y z SY C) as (g & L). pose proof (run_complete _ _ _ E g (y ++ z) [] ltac:(now rewrite app_nil_r) L). discriminate.
Qed.
(** ** pieces *)
Lemma den_lit w a : denotes (lit w) a <-> a = chars w.
Proof. unfold denotes. split; [intros (g & L); now apply lang_lit in L as (_ & ->)|intros ->; exists []; now apply lang_lit]. Qed.
Lemma den_word w a : denotes (Word Ascii.eqb w) a <-> a = w.
Proof. unfold denotes. cbn [lang]. split; [intros (g & _ & L); symmetry; now apply eqb_same|intros ->; exists []; split; [reflexivity|apply same_eqb]]. Qed.
Lemma number_some a : number a <-> exists n, number_of (S n) a.
Proof. unfold number, number_of. split; [intros (N & F); destruct a as [|c a]; [congruence|]; exists (List.length a); auto|intros (n & L & F); split; [intros ->; discriminate|exact F]]. Qed.
Lemma den_digits a : denotes some_digits a <-> number a.
Proof. rewrite number_some. unfold denotes. split; [intros (g & L); now apply lang_some_digits in L as (_ & L)|intros H; exists []; now apply lang_some_digits]. Qed.
Lemma den_group r a : denotes (Group r) a <-> denotes r a.
Proof. unfold denotes. cbn [lang]. split; [intros (g & g' & _ & L); eauto|intros (g & L); eauto]. Qed.
Lemma den_maybe r a : denotes (Maybe r) a <-> denotes r a \/ a = [].
Proof. unfold denotes. cbn [lang]. split; [intros (g & [L|(_ & ->)]); eauto|intros [(g & L)| ->]; [exists g; auto|exists (blanks (groups r)); auto]]. Qed.
Lemma den_or r s a : denotes (Or r s) a <-> denotes r a \/ denotes s a.
Proof. unfold denotes. cbn [lang]. split; [intros (g & [(g1 & _ & L)|(g1 & _ & L)]); eauto|intros [(g & L)|(g & L)]; eexists; [left|right]; eauto]. Qed.
Lemma char_ok c : name_char c = true <-> In c (chars "abcdefghijklmnopqrstuvwxyzABCDEFGHIJKLMNOPQRSTUVWXYZ0123456789_-").
Proof.
  assert (E : name_char c = existsb (Ascii.eqb c) (chars "abcdefghijklmnopqrstuvwxyzABCDEFGHIJKLMNOPQRSTUVWXYZ0123456789_-")) by (destruct c as [[] [] [] [] [] [] [] []]; reflexivity).
  rewrite E, existsb_exists. split; [intros (d & I & H); apply Ascii.eqb_eq in H; now subst d|intros I; exists c; split; [exact I|apply Ascii.eqb_refl]].
Qed.
Lemma den_name a : denotes (Group name_chars) a <-> plain_name a.
Proof.
  rewrite den_group. unfold denotes, plain_name, name_chars. cbn [lang]. split.
  - intros (g & g1 & g2 & a1 & a2 & -> & -> & (-> & L & F1) & (-> & F2)). split; [destruct a1; discriminate|]. intros c I. apply char_ok. rewrite Forall_forall in F1, F2. apply in_app_or in I as [I|I]; auto.
  - intros (N & H). destruct a as [|c a]; [congruence|]. exists [], [], [], [c], a. repeat split; auto.
    + constructor; [|constructor]. apply char_ok, H. now left.
    + apply Forall_forall. intros d I. apply char_ok, H. now right.
Qed.
Lemma monthly_iff dset aux rest f : no_end aux = true -> forallb no_end rest = true -> one_line f -> (matches (monthly_rx dset aux rest) f = true <-> field_name dset (denotes aux) (spells rest) f).
Proof.
  intros PA PR NL. unfold monthly_rx. replace ([lit dset; lit "-2_"; some_digits; lit "-"; some_digits; lit "_"; aux; lit "_"] ++ rest ++ [gz; Eos]) with (([lit dset; lit "-2_"; some_digits; lit "-"; some_digits; lit "_"; aux; lit "_"] ++ rest) ++ [gz; Eos]) by now rewrite <- app_assoc.
  rewrite matches_iff; [|rewrite forallb_app; cbn; rewrite PA, PR; reflexivity|exact NL]. cbn [app spells]. unfold field_name. split.
  - intros (y & z & -> & H & C). destruct H as (? & ? & -> & H1 & ? & ? & -> & H2 & ? & ? & -> & H3 & ? & ? & -> & H4 & ? & ? & -> & H5 & ? & ? & -> & H6 & ? & ? & -> & H7 & ? & ? & -> & H8 & H).
    apply den_lit in H1. apply den_lit in H2. apply den_digits in H3. apply den_lit in H4. apply den_digits in H5. apply den_lit in H6. apply den_lit in H8. subst.
    eexists _, _, _, _, z. split; [exact H3|]. split; [exact H5|]. split; [exact H7|]. split; [exact H|]. split; [exact C|]. rewrite <- !app_assoc. reflexivity.
  - intros (a & b & x & y & z & NA & NB & HX & HY & C & ->). exists (chars dset ++ chars "-2_" ++ a ++ chars "-" ++ b ++ chars "_" ++ x ++ chars "_" ++ y), z. rewrite <- !app_assoc. split; [reflexivity|]. split; [|exact C].
    do 8 (eexists _, _; split; [reflexivity|]; split; [first [now apply den_lit|now apply den_digits|exact HX]|]). exact HY.
Qed.
Lemma field_ext dset (a a' r r' : text -> Prop) f : (forall x, a x <-> a' x) -> (forall x, r x <-> r' x) -> (field_name dset a r f <-> field_name dset a' r' f).
Proof.
  intros H1 H2. unfold field_name. split; intros (u & v & x & y & z & NU & NV & HX & HY & C & E); exists u, v, x, y, z; (split; [exact NU|]); (split; [exact NV|]); (split; [now apply H1|]); (split; [now apply H2|]); auto.
Qed.
(** ** Release 6: mission, centre, solution and version *)
Definition center_code (proc : string) : string := if String.eqb proc "CSR" then "UTCSR" else if String.eqb proc "GFZ" then "GFZOP" else "JPLEM".
Definition padded (v w : text) : Prop := Forall (fun c => is_digit c = true) v /\ w = repeat "0"%char (2 - List.length v) ++ v.
Lemma zfill_padded v w : padded v w -> zfill2 v = w.
Proof.
  intros (F & ->). unfold zfill2. destruct v as [|c v]; [reflexivity|]. inversion F as [|? ? D ?]; subst. replace (is_sign c) with false; [reflexivity|]. clear - D. destruct c as [[] [] [] [] [] [] [] []]; first [reflexivity|discriminate D].
Qed.
(** the fields of solutions of Release 6 *)
Definition rl06_name (proc m sol : string) (ver : text -> Prop) : text -> Prop := field_name "GSM" (fun x => x = chars m) (fun y => exists v, ver v /\ y = chars (center_code proc) ++ chars "_" ++ chars sol ++ chars "_06" ++ v).
Lemma rl06_rest c sol v y (ver : text -> Prop) : (forall w, denotes v w <-> ver w) -> spells [lit (c ++ "_"); lit sol; lit "_"; lit "06"; v]%string y <-> exists w, ver w /\ y = chars c ++ chars "_" ++ chars sol ++ chars "_06" ++ w.
Proof.
  intros HV. assert (CC : chars (c ++ "_") = chars c ++ chars "_") by (clear; unfold chars; induction c; cbn in *; congruence). cbn [spells]. split.
  - intros (? & ? & -> & H1 & ? & ? & -> & H2 & ? & ? & -> & H3 & ? & ? & -> & H4 & ? & ? & -> & H5 & ->). apply den_lit in H1. apply den_lit in H2. apply den_lit in H3. apply den_lit in H4. apply HV in H5. subst. eexists. split; [exact H5|]. rewrite CC, app_nil_r, <- !app_assoc. reflexivity.
  - intros (w & HW & ->). exists (chars (c ++ "_")), (chars sol ++ chars "_06" ++ w). rewrite CC, <- !app_assoc. split; [reflexivity|]. split; [rewrite <- CC; now apply den_lit|]. exists (chars sol), (chars "_06" ++ w). split; [reflexivity|]. split; [now apply den_lit|]. exists (chars "_"), (chars "06" ++ w). split; [reflexivity|]. split; [now apply den_lit|].
    exists (chars "06"), w. split; [reflexivity|]. split; [now apply den_lit|]. exists w, []. rewrite app_nil_r. split; [reflexivity|]. split; [now apply HV|reflexivity].
Qed.
Lemma rl06_pattern proc m sol v rv : In proc ["CSR"; "GFZ"; "JPL"]%string -> (forall w, m = Some w -> In w ["GRAC"; "GRFO"]%string) -> version_rx v = Ok rv ->
  compile_pattern proc "RL06" "GSM" m sol v = Ok (monthly_rx "GSM" (lit (mission_text m)) [lit (center_code proc ++ "_"); lit sol; lit "_"; lit "06"; rv]%string).
Proof.
  intros IP IM EV. unfold compile_pattern. replace (match m with Some w => _ | None => false end) with false.
  2:{ destruct m as [w|]; [|reflexivity]. specialize (IM w eq_refl). cbn in IM. destruct IM as [<-|[<-|[]]]; reflexivity. }
  cbn in IP. rewrite EV. repeat destruct IP as [<-|IP]; try destruct IP; reflexivity.
Qed.
Theorem C121_release6 : forall proc m sol v w f, In proc ["CSR"; "GFZ"; "JPL"]%string -> In m ["GRAC"; "GRFO"]%string -> padded v w -> one_line f ->
  exists r, compile_pattern proc "RL06" "GSM" (Some m) sol (Version v) = Ok r /\ (matches r f = true <-> rl06_name proc m sol (fun u => u = w) f).
Proof.
  intros proc m sol v w f IP IM PV NL. eexists. split; [eapply rl06_pattern; [exact IP|intros u E; injection E as <-; exact IM|reflexivity]|]. rewrite monthly_iff by (reflexivity || exact NL). apply field_ext; [intros x; apply den_lit|]. intros y. apply rl06_rest. intros u. rewrite den_word, (zfill_padded v w PV). reflexivity.
Qed.
(** any version by default *)
Theorem C121_default_version : forall proc m sol f, In proc ["CSR"; "GFZ"; "JPL"]%string -> In m ["GRAC"; "GRFO"]%string -> one_line f ->
  exists r, compile_pattern proc "RL06" "GSM" (Some m) sol AnyVersion = Ok r /\ (matches r f = true <-> rl06_name proc m sol number f).
Proof.
  intros proc m sol f IP IM NL. eexists. split; [eapply rl06_pattern; [exact IP|intros u E; injection E as <-; exact IM|reflexivity]|]. rewrite monthly_iff by (reflexivity || exact NL). apply field_ext; [intros x; apply den_lit|]. intros y. apply rl06_rest. intros u. apply den_digits.
Qed.
(** REFUTED: the mission is optional, but without it the solutions of Release 6 are looked for under the name None *)
Theorem C121_no_mission_refuted : forall proc sol v w, In proc ["CSR"; "GFZ"; "JPL"]%string -> padded v w -> exists r, compile_pattern proc "RL06" "GSM" None sol (Version v) = Ok r /\
  (forall f, one_line f -> (matches r f = true <-> rl06_name proc "None" sol (fun u => u = w) f)).
Proof.
  intros proc sol v w IP PV. eexists. split; [eapply rl06_pattern; [exact IP|discriminate|reflexivity]|]. intros f NL. rewrite monthly_iff by (reflexivity || exact NL). apply field_ext; [intros x; apply den_lit|]. intros y. apply rl06_rest. intros u. rewrite den_word, (zfill_padded v w PV). reflexivity.
Qed.
(** ** earlier releases: the mission and the version play no role *)
Inductive old_release : string -> string -> string -> (text -> Prop) -> Prop :=
| Old_csr4 : old_release "CSR" "RL04" "GSM" (fun y => y = chars "UTCSR_0060_0004")
| Old_csr5 : old_release "CSR" "RL05" "GSM" (fun y => y = chars "UTCSR_0060_0005")
| Old_gfz4 : old_release "GFZ" "RL04" "GSM" (fun y => y = chars "EIGEN_G---_0004")
| Old_gfz5 : old_release "GFZ" "RL05" "GSM" (fun y => y = chars "EIGEN_G---_005a" \/ y = chars "EIGEN_GK2-_005a")
| Old_jpl4 : forall d, In d ["GAA"; "GAB"; "GAC"; "GAD"; "GSM"]%string -> old_release "JPL" "RL04" d (fun y => y = chars "JPLEM_0001_0004")
| Old_jpl5 : forall d, In d ["GAA"; "GAB"; "GAC"; "GAD"; "GSM"]%string -> old_release "JPL" "RL05" d (fun y => y = chars "JPLEM_0001_0005").
Definition a_mission (m : option string) : Prop := forall w, m = Some w -> In w ["GRAC"; "GRFO"]%string.
Lemma mission_checked (m : option string) : a_mission m -> match m with Some w => negb (String.eqb w "") && negb (one_of w ["GRAC"; "GRFO"]%string) | None => false end = false.
Proof. intros H. destruct m as [w|]; [|reflexivity]. specialize (H w eq_refl). cbn in H. destruct H as [<-|[<-|[]]]; reflexivity. Qed.
Lemma two_lits u v y : spells [lit u; lit v] y <-> y = chars u ++ chars v.
Proof.
  cbn [spells]. split; [intros (? & ? & -> & H1 & ? & ? & -> & H2 & ->); apply den_lit in H1; apply den_lit in H2; subst; now rewrite app_nil_r|intros ->]. exists (chars u), (chars v). split; [reflexivity|]. split; [now apply den_lit|]. exists (chars v), []. rewrite app_nil_r. split; [reflexivity|]. split; [now apply den_lit|reflexivity].
Qed.
Lemma one_lit u y : spells [lit u] y <-> y = chars u.
Proof. cbn [spells]. split; [intros (? & ? & -> & H1 & ->); apply den_lit in H1; subst; now rewrite app_nil_r|intros ->; exists (chars u), []; rewrite app_nil_r; split; [reflexivity|]; split; [now apply den_lit|reflexivity]]. Qed.
Lemma gfz5_lits y : spells [lit "EIGEN_"; Group (ors [lit "G---"; lit "GK2-"]); lit "_005a"] y <-> y = chars "EIGEN_G---_005a" \/ y = chars "EIGEN_GK2-_005a".
Proof.
  cbn [spells]. split.
  - intros (? & ? & -> & H1 & ? & ? & -> & H2 & ? & ? & -> & H3 & ->). apply den_lit in H1. apply den_lit in H3. cbn [ors] in H2. rewrite den_group, den_or, !den_lit in H2. subst. destruct H2 as [->| ->]; [left|right]; reflexivity.
  - intros H. assert (G : forall u, u = chars "G---" \/ u = chars "GK2-" -> exists a1 a2 : list ascii, chars "EIGEN_" ++ u ++ chars "_005a" = a1 ++ a2 /\ denotes (lit "EIGEN_") a1 /\ (exists a3 a4, a2 = a3 ++ a4 /\ denotes (Group (ors [lit "G---"; lit "GK2-"])) a3 /\ exists a5 a6, a4 = a5 ++ a6 /\ denotes (lit "_005a") a5 /\ a6 = [])).
    { intros u HU. exists (chars "EIGEN_"), (u ++ chars "_005a"). split; [reflexivity|]. split; [now apply den_lit|]. exists u, (chars "_005a"). split; [reflexivity|]. split; [cbn [ors]; now rewrite den_group, den_or, !den_lit|]. exists (chars "_005a"), []. split; [reflexivity|]. split; [now apply den_lit|reflexivity]. }
    destruct H as [->| ->]; [exact (G _ (or_introl eq_refl))|exact (G _ (or_intror eq_refl))].
Qed.
Theorem C121_old_releases : forall proc drel dset rest m sol v f, old_release proc drel dset rest -> a_mission m -> one_line f ->
  exists r, compile_pattern proc drel dset m sol v = Ok r /\ (matches r f = true <-> field_name dset number rest f).
Proof.
  intros proc drel dset rest m sol v f O AM NL. pose proof (mission_checked m AM) as MC.
  assert (ST : forall aux l, no_end aux = true -> forallb no_end l = true -> (forall x, denotes aux x <-> number x) -> (forall y, spells l y <-> rest y) -> compile_pattern proc drel dset m sol v = Ok (monthly_rx dset aux l) ->
    exists r, compile_pattern proc drel dset m sol v = Ok r /\ (matches r f = true <-> field_name dset number rest f)).
  { intros aux l P1 P2 H1 H2 E. exists (monthly_rx dset aux l). split; [exact E|]. rewrite monthly_iff by assumption. now apply field_ext. }
  destruct O as [ | | | |d ID|d ID].
  - apply (ST some_digits [lit "UTCSR_0060_000"; lit "4"]); try reflexivity; [apply den_digits|intros y; now rewrite two_lits|]. unfold compile_pattern. rewrite MC. reflexivity.
  - apply (ST some_digits [lit "UTCSR_0060_000"; lit "5"]); try reflexivity; [apply den_digits|intros y; now rewrite two_lits|]. unfold compile_pattern. rewrite MC. reflexivity.
  - apply (ST some_digits [lit "EIGEN_G---_0004"]); try reflexivity; [apply den_digits|intros y; now rewrite one_lit|]. unfold compile_pattern. rewrite MC. reflexivity.
  - apply (ST some_digits [lit "EIGEN_"; Group (ors [lit "G---"; lit "GK2-"]); lit "_005a"]); try reflexivity; [apply den_digits|apply gfz5_lits|]. unfold compile_pattern. rewrite MC. reflexivity.
  - apply (ST some_digits [lit "JPLEM_0001_000"; lit "4"]); try reflexivity; [apply den_digits|intros y; now rewrite two_lits|]. unfold compile_pattern. rewrite MC. cbn in ID. repeat destruct ID as [<-|ID]; try destruct ID; reflexivity.
  - apply (ST some_digits [lit "JPLEM_0001_000"; lit "5"]); try reflexivity; [apply den_digits|intros y; now rewrite two_lits|]. unfold compile_pattern. rewrite MC. cbn in ID. repeat destruct ID as [<-|ID]; try destruct ID; reflexivity.
Qed.
Print Assumptions C121_old_releases.
