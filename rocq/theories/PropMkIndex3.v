(** C121, continued: the lines of the index files, and the run over all products *)
From Coq Require Import Ascii String List Arith Lia Bool ZArith Sorting.Sorted Sorting.Permutation ZifyBool ZifyNat.
From Verif Require Import Base UtilModel TextModel ReduceModel ReduceProofs NcIndexModel NameModel NameProofs IndexModel MkIndexModel PropName PropName2 PropMkIndex PropMkIndex2.
Import ListNotations.
Close Scope Z_scope.
Open Scope nat_scope.
Open Scope list_scope.

(** ** specification *)
(** order of the names: by the codes of the first characters that differ *)
Inductive precedes : text -> text -> Prop :=
| Pre_end : forall c b, precedes [] (c :: b)
| Pre_code : forall c d a b, nat_of_ascii c < nat_of_ascii d -> precedes (c :: a) (d :: b)
| Pre_same : forall c a b, precedes a b -> precedes (c :: a) (c :: b).
(** entries of a directory *)
Definition entry_name (f : text) : Prop := one_line f /\ without slash f.
(** first and last day have seven digits: year and day of the year *)
Definition dated (dset : string) (f : text) : Prop := forall a b rest, f = chars dset ++ chars "-2_" ++ a ++ chars "-" ++ b ++ chars "_" ++ rest -> number a -> number b -> List.length a = 7 /\ List.length b = 7.
(** the index of a directory: in the order of the names, only wanted files, for every wanted file exactly one of the same period, of the same or a later version *)
Definition good_index (files : list text) (wanted : text -> Prop) (idx : list text) : Prop :=
  StronglySorted precedes idx /\ (forall f, In f idx -> In f files /\ wanted f) /\
  (forall f p, In f files -> wanted f -> starts_ends f p -> exists g, In g idx /\ starts_ends g p /\ (forall h, In h idx -> starts_ends h p -> h = g) /\ forall v w, has_version f v -> has_version g w -> (v <= w)%Z).

Ltac nochar := let IE := fresh "IE" in intros IE; cbn in IE; repeat (destruct IE as [IE|IE]; [discriminate IE|]); destruct IE.
Ltac noline := let e := fresh "e" in let IE := fresh "IE" in apply Forall_forall; intros e IE ->; revert IE; nochar.
(** ** order *)
Lemma ltb_precedes a b : text_ltb a b = true <-> precedes a b.
Proof.
  revert b. induction a as [|c a IH]; intros [|d b]; cbn [text_ltb].
  - split; [discriminate|inversion 1].
  - split; [constructor|reflexivity].
  - split; [discriminate|inversion 1].
  - rewrite orb_true_iff, andb_true_iff, Nat.ltb_lt, Nat.eqb_eq, IH. split.
    + intros [L|(E & P)]; [now constructor|]. apply nat_of_ascii_inj in E. subst d. now constructor.
    + inversion 1; subst; [now left|now right].
Qed.
Lemma precedes_total a b : precedes a b \/ a = b \/ precedes b a.
Proof.
  revert b. induction a as [|c a IH]; intros [|d b]; [auto|left; constructor|right; right; constructor|]. destruct (Nat.lt_trichotomy (nat_of_ascii c) (nat_of_ascii d)) as [L|[E|G]]; [left; now constructor| |right; right; now constructor].
  apply nat_of_ascii_inj in E. subst d. destruct (IH b) as [H|[->|H]]; [left|right; left|right; right]; try reflexivity; now constructor.
Qed.
Lemma precedes_trans a b c : precedes a b -> precedes b c -> precedes a c.
Proof.
  intros H. revert c. induction H as [d b|u v a b L|u a b H IH]; intros c K; inversion K; subst; solve [apply Pre_end | apply Pre_code; lia | apply Pre_same; auto].
Qed.
Lemma insert_perm a l : Permutation (a :: l) (insert_name a l).
Proof. induction l as [|b l IH]; cbn [insert_name]; [reflexivity|]. destruct (text_ltb b a); [|reflexivity]. rewrite perm_swap. now constructor. Qed.
Lemma sort_perm l : Permutation l (sort_names l).
Proof. induction l as [|a l IH]; [constructor|]. cbn [sort_names fold_right]. etransitivity; [apply perm_skip, IH|apply insert_perm]. Qed.
Lemma insert_sorted a l : ~ In a l -> StronglySorted precedes l -> StronglySorted precedes (insert_name a l).
Proof.
  intros N H. induction H as [|b l H IH F]; cbn [insert_name]; [repeat constructor|]. destruct (text_ltb b a) eqn:E.
  - constructor; [apply IH; intros I; apply N; now right|]. apply Forall_forall. intros x I. apply (Permutation_in _ (Permutation_sym (insert_perm a l))) in I. destruct I as [<-|I]; [now apply ltb_precedes|]. rewrite Forall_forall in F. auto.
  - assert (P : precedes a b). { destruct (precedes_total a b) as [P|[->|P]]; [exact P|exfalso; apply N; now left|]. apply ltb_precedes in P. congruence. }
    constructor; [now constructor|]. constructor; [exact P|]. apply Forall_forall. intros x I. rewrite Forall_forall in F. apply (precedes_trans _ b); auto.
Qed.
Lemma sort_sorted l : NoDup l -> StronglySorted precedes (sort_names l).
Proof.
  induction 1 as [|a l N D IH]; [constructor|]. cbn [sort_names fold_right]. apply insert_sorted; [|exact IH]. intros I. apply N. now apply (Permutation_in _ (Permutation_sym (sort_perm l))).
Qed.
(** ** the lines from the files that are found *)
Lemma monthly_starts f : monthly f -> exists p, starts_ends f p.
Proof. intros M. destruct (monthly_facts f M) as (p & _ & _ & H & _). eauto. Qed.
Lemma reduce_index files names (wanted : text -> Prop) : Forall monthly names -> (forall f, In f names <-> In f files /\ wanted f) -> exists kept, reduce_names names = Ok kept /\ good_index files wanted (sort_names kept).
Proof.
  intros M IFF. destruct (C119_reduce names M) as (kept & ps & E & SO & IN & F2). exists kept. split; [exact E|].
  assert (MEM : forall f, In f kept -> exists p, In p ps /\ In f names /\ starts_ends f p /\ forall g, In g kept -> starts_ends g p -> g = f).
  { clear E IN. revert SO. induction F2 as [|p g ps kept (I & SE & _) F2 IH]; intros SO f; [intros []|]. inversion SO as [|? ? SO' FA]; subst. intros [<-|I'].
    - exists p. split; [now left|]. split; [exact I|]. split; [exact SE|]. intros h [<-|IH']; [reflexivity|]. intros SH. exfalso.
      destruct (IH SO' h IH') as (q & Iq & _ & SQ & _). rewrite (starts_unique _ _ _ SH SQ) in FA. rewrite Forall_forall in FA. apply FA in Iq. now apply period_lt_irrefl in Iq.
    - destruct (IH SO' f I') as (q & Iq & IN' & SQ & U). exists q. split; [now right|]. split; [exact IN'|]. split; [exact SQ|]. intros h [<-|IH']; [|now apply U]. intros SH. exfalso. rewrite (starts_unique _ _ _ SH SE) in Iq. rewrite Forall_forall in FA. apply FA in Iq. now apply period_lt_irrefl in Iq. }
  assert (ND : NoDup kept).
  { clear E IN MEM. revert SO. induction F2 as [|p g ps kept (I & SE & _) F2 IH]; intros SO; [constructor|]. inversion SO as [|? ? SO' FA]; subst. constructor; [|now apply IH]. intros I'. assert (X : exists q, In q ps /\ starts_ends g q).
    { clear - F2 I'. induction F2 as [|q h ps kept (_ & SH & _) F2 IH]; [destruct I'|]. destruct I' as [->|I']; [exists q; split; [now left|exact SH]|]. destruct (IH I') as (r & Ir & SR). exists r. split; [now right|exact SR]. }
    destruct X as (q & Iq & SQ). rewrite (starts_unique _ _ _ SQ SE) in Iq. rewrite Forall_forall in FA. apply FA in Iq. now apply period_lt_irrefl in Iq. }
  assert (PM : forall f, In f (sort_names kept) <-> In f kept) by (intros f; split; apply Permutation_in; [symmetry|]; apply sort_perm).
  split; [now apply sort_sorted|]. split.
  - intros f I. apply PM in I. destruct (MEM f I) as (p & _ & IN' & _). now apply IFF.
  - intros f p IF W SE. assert (IP : In p ps) by (apply IN; exists f; split; [now apply IFF|exact SE]).
    assert (X : exists g, In g kept /\ starts_ends g p /\ forall f v w, In f names -> starts_ends f p -> has_version f v -> has_version g w -> (v <= w)%Z).
    { clear - F2 IP. induction F2 as [|q h ps kept (_ & SH & HV) F2 IH]; [destruct IP|]. destruct IP as [->|IP]; [exists h; split; [now left|auto]|]. destruct (IH IP) as (g & Ig & G). exists g. split; [now right|exact G]. }
    destruct X as (g & Ig & SG & HV). exists g. split; [now apply PM|]. split; [exact SG|]. split.
    + intros h Ih SH. apply PM in Ih. destruct (MEM g Ig) as (q & _ & _ & SQ & U). apply U; [exact Ih|]. now rewrite (starts_unique _ _ _ SQ SG).
    + intros v w. apply HV; [now apply IFF|exact SE].
Qed.
(** names of seven-digit dates as parts *)
Lemma split7 a : number a -> List.length a = 7 -> number_of 4 (firstn 4 a) /\ number_of 3 (skipn 4 a).
Proof. intros (_ & F) L. rewrite <- (firstn_skipn 4 a) in F. apply Forall_app in F as (F1 & F2). unfold number_of. rewrite firstn_length, skipn_length. repeat split; auto; lia. Qed.
Lemma digits_line a : Forall (fun c => is_digit c = true) a -> one_line a /\ without "_"%char a /\ without slash a.
Proof. intros F. unfold one_line, without. rewrite Forall_forall in F. split; [apply Forall_forall; intros c I ->; apply F in I; discriminate|]. split; intros I; apply F in I; discriminate. Qed.
Definition parts_of (dset : string) (a b x c sol rel more z : text) : parts := mkparts (chars dset) (firstn 4 a) (skipn 4 a) (firstn 4 b) (skipn 4 b) x c sol rel more z.
Lemma parts_written dset a b x c sol rel more z : written (parts_of dset a b x c sol rel more z) = chars dset ++ chars "-2_" ++ a ++ chars "-" ++ b ++ chars "_" ++ x ++ chars "_" ++ (c ++ chars "_" ++ sol ++ chars "_" ++ rel ++ more) ++ z.
Proof. unfold written, parts_of. cbn [p_set p_sy p_sd p_ey p_ed p_aux p_center p_sol p_rel p_more p_suffix]. rewrite <- (firstn_skipn 4 a) at 3. rewrite <- (firstn_skipn 4 b) at 3. rewrite <- !app_assoc. reflexivity. Qed.
Lemma parts_released dset a b x c sol rel more z : In dset ["GAA"; "GAB"; "GAC"; "GAD"; "GSM"]%string -> number a -> number b -> List.length a = 7 -> List.length b = 7 -> one_line x -> without "_"%char x -> a_center c -> one_line sol -> without "_"%char sol -> number rel ->
  more = [] \/ more = chars "a" -> compressed z -> released (parts_of dset a b x c sol rel more z).
Proof.
  intros ID NA NB LA LB OX WX AC OS WS NR M C. destruct (split7 a NA LA) as (A1 & A2). destruct (split7 b NB LB) as (B1 & B2). unfold released, shape, parts_of. cbn [p_set p_sy p_sd p_ey p_ed p_aux p_center p_sol p_rel p_more p_suffix].
  assert (OD : one_line (chars dset) /\ without "-"%char (chars dset)). { cbn in ID. repeat destruct ID as [<-|ID]; try destruct ID; (split; [noline|nochar]). }
  assert (OM : one_line more) by (destruct M as [->| ->]; noline).
  split; [repeat (split; [assumption|])|].
  - split; [now apply number_some|]. split; [destruct C as [->| ->]; [now left|right; exists ".gz"%string; cbn; auto]|]. repeat (split; [assumption||apply OD|]). assumption.
  - split; [apply OD|]. split; [exact WX|]. split; [exact WS|]. split.
    + destruct M as [->| ->], C as [->| ->]; reflexivity || exact Logic.I.
    + intros _ u s E (w & I & EW). assert (L : List.length s <= 1) by (apply (f_equal (@List.length ascii)) in E; rewrite app_length in E; destruct M as [->| ->]; cbn in E; lia). rewrite EW in L. cbn in I. repeat destruct I as [<-|I]; try destruct I; cbn in L; lia.
Qed.
Lemma entry_base f : entry_name f -> base_name f = f.
Proof. intros (_ & W). exact (proj2 (C119_directory [] f W)). Qed.
(** the files found for one mission *)
Lemma granules_ok files p versions im r v : (let '(pr, rl, ds) := p in compile_pattern pr rl ds (Some (snd im)) "BA01" (Version v) = Ok r) -> nth_error versions (fst im) = Some v -> granules files p versions im = Ok (filter (matches r) files).
Proof. destruct p as ((pr, rl), ds). intros E N. unfold granules. now rewrite N, E. Qed.
Lemma index_lines_ok files p v0 v1 r0 r1 : (let '(pr, rl, ds) := p in compile_pattern pr rl ds (Some "GRAC"%string) "BA01" (Version v0) = Ok r0) -> (let '(pr, rl, ds) := p in compile_pattern pr rl ds (Some "GRFO"%string) "BA01" (Version v1) = Ok r1) ->
  index_lines files p [v0; v1] = do kept <- reduce_names (filter (matches r0) files ++ filter (matches r1) files); Ok (sort_names kept).
Proof.
  intros E0 E1. unfold index_lines, missions. cbn [mapM]. rewrite (granules_ok _ _ _ _ r0 v0) by (exact E0 || reflexivity). cbn [bind]. rewrite (granules_ok _ _ _ _ r1 v1) by (exact E1 || reflexivity). cbn [bind List.concat app]. now rewrite app_nil_r.
Qed.
Lemma padded_number v w : padded v w -> number w /\ 2 <= List.length w.
Proof.
  intros (F & ->). assert (L : 2 <= List.length (repeat "0"%char (2 - List.length v) ++ v)) by (rewrite app_length, repeat_length; lia). split; [|exact L]. split; [destruct (repeat "0"%char (2 - List.length v) ++ v); [cbn in L; lia|discriminate]|]. apply Forall_app. split; [|exact F]. apply Forall_forall. intros c I. apply repeat_spec in I. now subst c.
Qed.
(** Release 6: the solutions BA01 of both missions, each with its version *)
Theorem C121_index : forall proc v0 v1 w0 w1 files, In proc ["CSR"; "GFZ"; "JPL"]%string -> padded v0 w0 -> padded v1 w1 -> Forall entry_name files -> Forall (dated "GSM") files ->
  exists idx, index_lines files (proc, "RL06", "GSM")%string [v0; v1] = Ok idx /\
    good_index files (fun f => rl06_name proc "GRAC" "BA01" (fun u => u = w0) f \/ rl06_name proc "GRFO" "BA01" (fun u => u = w1) f) idx.
Proof.
  intros proc v0 v1 w0 w1 files IP P0 P1 EN DT. rewrite Forall_forall in EN, DT.
  destruct (C121_release6 proc "GRAC" "BA01" v0 w0 [] IP ltac:(cbn; auto) P0 ltac:(constructor)) as (r0 & E0 & _). destruct (C121_release6 proc "GRFO" "BA01" v1 w1 [] IP ltac:(cbn; auto) P1 ltac:(constructor)) as (r1 & E1 & _).
  assert (I0 : forall f, In f files -> (matches r0 f = true <-> rl06_name proc "GRAC" "BA01" (fun u => u = w0) f)). { intros f I. destruct (C121_release6 proc "GRAC" "BA01" v0 w0 f IP ltac:(cbn; auto) P0 (proj1 (EN f I))) as (r & E & H). rewrite E0 in E. injection E as <-. exact H. }
  assert (I1 : forall f, In f files -> (matches r1 f = true <-> rl06_name proc "GRFO" "BA01" (fun u => u = w1) f)). { intros f I. destruct (C121_release6 proc "GRFO" "BA01" v1 w1 f IP ltac:(cbn; auto) P1 (proj1 (EN f I))) as (r & E & H). rewrite E1 in E. injection E as <-. exact H. }
  rewrite (index_lines_ok files (proc, "RL06", "GSM")%string v0 v1 r0 r1 E0 E1).
  assert (AM : forall m v w f, In m ["GRAC"; "GRFO"]%string -> padded v w -> In f files -> rl06_name proc m "BA01" (fun u => u = w) f -> monthly f).
  { intros m v w f IM PV IF (a & b & x & y & z & NA & NB & -> & (u & -> & ->) & C & EF). destruct (padded_number v w PV) as (NW & LW).
    destruct (DT f IF a b _ EF NA NB) as (LA & LB). assert (EC : rl06_name proc m "BA01" (fun u => u = w) f -> True) by auto. clear EC.
    exists (parts_of "GSM" a b (chars m) (chars (center_code proc)) (chars "BA01") (chars "06" ++ w) [] z). split; [|split].
    - apply parts_released; auto; try (cbn; auto 10; fail).
      + cbn in IM. repeat destruct IM as [<-|IM]; try destruct IM; noline.
      + cbn in IM. repeat destruct IM as [<-|IM]; try destruct IM; nochar.
      + exists (center_code proc). split; [|reflexivity]. cbn in IP. repeat destruct IP as [<-|IP]; try destruct IP; cbn; auto 10.
      + noline.
      + nochar.
      + split; [discriminate|]. apply Forall_app. split; [|apply NW]. repeat constructor.
    - rewrite (entry_base f (EN f IF)), parts_written, EF, app_nil_r. reflexivity.
    - cbn [p_rel parts_of]. rewrite app_length. cbn. lia. }
  destruct (reduce_index files (filter (matches r0) files ++ filter (matches r1) files) (fun f => rl06_name proc "GRAC" "BA01" (fun u => u = w0) f \/ rl06_name proc "GRFO" "BA01" (fun u => u = w1) f)) as (kept & R & G).
  - apply Forall_forall. intros f I. apply in_app_or in I as [I|I]; apply filter_In in I as (IF & M); [apply (AM "GRAC" v0 w0)%string|apply (AM "GRFO" v1 w1)%string]; try (cbn; auto; fail); auto; [now apply I0|now apply I1].
  - intros f. rewrite in_app_iff, !filter_In. split; [intros [(I & M)|(I & M)]; (split; [exact I|]); [left; now apply I0|right; now apply I1]|]. intros (I & [M|M]); [left|right]; (split; [exact I|]); [now apply I0|now apply I1].
  - exists (sort_names kept). rewrite R. split; [reflexivity|exact G].
Qed.
Print Assumptions C121_index.

(** earlier releases: every file is found for both missions and is listed once *)
Definition four_digits (proc drel dset : string) : Prop := (In (proc, drel) [("CSR", "RL04"); ("CSR", "RL05"); ("GFZ", "RL04")] /\ dset = "GSM" \/ In (proc, drel) [("JPL", "RL04"); ("JPL", "RL05")] /\ In dset ["GAA"; "GAB"; "GAC"; "GAD"; "GSM"])%string.
Lemma old_names proc drel dset rest m sol v : old_release proc drel dset rest -> a_mission m -> exists r, compile_pattern proc drel dset m sol v = Ok r /\ forall f, one_line f -> (matches r f = true <-> field_name dset number rest f).
Proof.
  intros O AM. destruct (C121_old_releases proc drel dset rest m sol v [] O AM ltac:(constructor)) as (r & E & _). exists r. split; [exact E|]. intros g NL. destruct (C121_old_releases proc drel dset rest m sol v g O AM NL) as (r' & E' & H). rewrite E in E'. injection E' as <-. exact H.
Qed.
Lemma number_facts x : number x -> one_line x /\ without "_"%char x.
Proof. intros (_ & F). destruct (digits_line x F) as (A & B & _). auto. Qed.
Lemma old_set proc drel dset rest : old_release proc drel dset rest -> In dset ["GAA"; "GAB"; "GAC"; "GAD"; "GSM"]%string.
Proof. intros O. destruct O; cbn; auto 10. Qed.
(** the parts of a name of an earlier release *)
Lemma old_parts proc drel dset rest f : old_release proc drel dset rest -> entry_name f -> dated dset f -> field_name dset number rest f ->
  exists x, released x /\ base_name f = written x /\ p_set x = chars dset /\ (if String.eqb proc "GFZ" && String.eqb drel "RL05" then p_rel x = chars "005" /\ p_more x = chars "a" else List.length (p_rel x) = 4).
Proof.
  intros O EN DT (a & b & x & y & z & NA & NB & NX & HY & C & EF). destruct (DT a b _ EF NA NB) as (LA & LB). destruct (number_facts x NX) as (OX & WX). pose proof (old_set _ _ _ _ O) as ID. rewrite (entry_base f EN).
  assert (ST : forall c sol rel more, y = c ++ chars "_" ++ sol ++ chars "_" ++ rel ++ more -> a_center c -> one_line sol -> without "_"%char sol -> number rel -> more = [] \/ more = chars "a" ->
    (if String.eqb proc "GFZ" && String.eqb drel "RL05" then rel = chars "005" /\ more = chars "a" else List.length rel = 4) ->
    exists p, released p /\ f = written p /\ p_set p = chars dset /\ (if String.eqb proc "GFZ" && String.eqb drel "RL05" then p_rel p = chars "005" /\ p_more p = chars "a" else List.length (p_rel p) = 4)).
  { intros c sol rel more EY AC OS WS NR M H. exists (parts_of dset a b x c sol rel more z). split; [now apply parts_released|]. split; [rewrite parts_written, EF, EY; reflexivity|]. split; [reflexivity|]. exact H. }
  assert (DG : forall s, forallb is_digit s = true -> s <> [] -> number s) by (intros s H N; split; [exact N|]; apply Forall_forall; now apply forallb_forall).
  assert (AC : forall w, In w centers -> a_center (chars w)) by (intros w I; exists w; auto).
  destruct O as [ | | | |d Id|d Id].
  - subst y. apply (ST (chars "UTCSR") (chars "0060") (chars "0004") []); [reflexivity|apply AC; cbn; auto 10|noline|nochar|apply DG; [reflexivity|discriminate]|now left|reflexivity].
  - subst y. apply (ST (chars "UTCSR") (chars "0060") (chars "0005") []); [reflexivity|apply AC; cbn; auto 10|noline|nochar|apply DG; [reflexivity|discriminate]|now left|reflexivity].
  - subst y. apply (ST (chars "EIGEN") (chars "G---") (chars "0004") []); [reflexivity|apply AC; cbn; auto 10|noline|nochar|apply DG; [reflexivity|discriminate]|now left|reflexivity].
  - destruct HY as [->| ->]; [apply (ST (chars "EIGEN") (chars "G---") (chars "005") (chars "a"))|apply (ST (chars "EIGEN") (chars "GK2-") (chars "005") (chars "a"))]; first [reflexivity|apply AC; cbn; auto 10; fail|noline|nochar|apply DG; [reflexivity|discriminate]|now right|now split].
  - subst y. apply (ST (chars "JPLEM") (chars "0001") (chars "0004") []); [reflexivity|apply AC; cbn; auto 10|noline|nochar|apply DG; [reflexivity|discriminate]|now left|reflexivity].
  - subst y. apply (ST (chars "JPLEM") (chars "0001") (chars "0005") []); [reflexivity|apply AC; cbn; auto 10|noline|nochar|apply DG; [reflexivity|discriminate]|now left|reflexivity].
Qed.
Theorem C121_old_index : forall proc drel dset rest v0 v1 files, old_release proc drel dset rest -> (proc, drel) <> ("GFZ", "RL05")%string -> Forall entry_name files -> Forall (dated dset) files ->
  exists idx, index_lines files (proc, drel, dset) [v0; v1] = Ok idx /\ good_index files (field_name dset number rest) idx.
Proof.
  intros proc drel dset rest v0 v1 files O NG EN DT. rewrite Forall_forall in EN, DT. assert (A0 : a_mission (Some "GRAC"%string)) by (intros w E; injection E as <-; cbn; auto). assert (A1 : a_mission (Some "GRFO"%string)) by (intros w E; injection E as <-; cbn; auto).
  destruct (old_names proc drel dset rest _ "BA01" (Version v0) O A0) as (r0 & E0 & I0). destruct (old_names proc drel dset rest _ "BA01" (Version v1) O A1) as (r1 & E1 & I1). rewrite (index_lines_ok files (proc, drel, dset) v0 v1 r0 r1 E0 E1).
  destruct (reduce_index files (filter (matches r0) files ++ filter (matches r1) files) (field_name dset number rest)) as (kept & R & G).
  - apply Forall_forall. intros f I. assert (H : In f files /\ field_name dset number rest f) by (apply in_app_or in I as [I|I]; apply filter_In in I as (IF & M); (split; [exact IF|]); [apply I0|apply I1]; auto; now apply EN). destruct H as (IF & W).
    destruct (old_parts proc drel dset rest f O (EN f IF) (DT f IF) W) as (x & R & E & _ & L). exists x. split; [exact R|]. split; [exact E|]. destruct (String.eqb proc "GFZ" && String.eqb drel "RL05") eqn:B; [|lia]. apply andb_true_iff in B as (B1 & B2). apply String.eqb_eq in B1. apply String.eqb_eq in B2. subst. now contradiction NG.
  - intros f. rewrite in_app_iff, !filter_In. split; [intros [(I & M)|(I & M)]; (split; [exact I|]); [apply I0 in M|apply I1 in M]; auto; now apply EN|]. intros (I & W). left. split; [exact I|]. apply I0; [now apply EN|exact W].
  - exists (sort_names kept). rewrite R. split; [reflexivity|exact G].
Qed.
Print Assumptions C121_old_index.
(** REFUTED: Release 5 of the GFZ: one file is enough for the program to stop (it is found for both missions, and the versions of the two cannot be compared) *)
Lemma insert_not_nil d l : insert_date d l <> [].
Proof. destruct l as [|x l]; cbn [insert_date]; [discriminate|]. destruct (tdate_ltb d x); [discriminate|]. destruct (tdate_eqb d x); discriminate. Qed.
Lemma insert_in d l x : In x (insert_date d l) -> x = d \/ In x l.
Proof.
  induction l as [|y l IH]; cbn [insert_date]; [intros [<-|[]]; auto|]. destruct (tdate_ltb d y); [intros [<-|I]; auto|]. destruct (tdate_eqb d y); [auto|]. intros [<-|I]; [right; now left|]. destruct (IH I) as [->|I']; [now left|right; now right].
Qed.
Lemma sorted_in l x : In x (sorted_dates l) -> In x l.
Proof. induction l as [|d l IH]; [intros []|]. cbn [sorted_dates fold_right]. intros I. apply insert_in in I as [->|I]; [now left|right; now apply IH]. Qed.
Lemma tdate_refl d : tdate_eqb d d = true.
Proof. unfold tdate_eqb, tpair_eqb. rewrite !(proj2 (str_eqb_iff _ _) eq_refl). reflexivity. Qed.
Lemma mapM_app_ok {A B} (f : A -> res B) l m a b : mapM f l = Ok a -> mapM f m = Ok b -> mapM f (l ++ m) = Ok (a ++ b).
Proof. revert a. induction l as [|x l IH]; cbn [mapM app]; intros a H K; [injection H as <-; exact K|]. destruct (f x) as [y|]; [|discriminate]. cbn [bind] in *. destruct (mapM f l) as [ys|]; [|discriminate]. injection H as <-. rewrite (IH ys eq_refl K). reflexivity. Qed.
Lemma combine_app' {A B} (a a' : list A) (b b' : list B) : List.length a = List.length b -> combine (a ++ a') (b ++ b') = combine a b ++ combine a' b'.
Proof. revert b. induction a as [|x a IH]; intros [|y b] L; cbn in *; try lia; [reflexivity|]. now rewrite IH by lia. Qed.
Lemma twice_fails names : names <> [] -> (forall f, In f names -> (exists d, parse_grace_file f = Ok d) /\ parse_version f = Err IndexError) -> reduce_names (names ++ names) = Err IndexError.
Proof.
  intros NE H. assert (M : exists ds, mapM parse_grace_file names = Ok ds /\ List.length ds = List.length names).
  { assert (H' : forall f, In f names -> exists d, parse_grace_file f = Ok d) by (intros f I; now apply H). clear H NE. induction names as [|f names IH]; [exists []; auto|]. destruct (H' f (or_introl eq_refl)) as (d & E). destruct IH as (ds & E' & L); [intros g I; apply H'; now right|]. exists (d :: ds). cbn. rewrite E, E'. cbn. auto. }
  destruct M as (ds & E & L). unfold reduce_names. rewrite (mapM_app_ok _ _ _ _ _ E E). cbn [bind].
  destruct ds as [|d0 ds]; [destruct names; [congruence|discriminate]|]. set (D := d0 :: ds) in *. destruct (sorted_dates (D ++ D)) as [|d rest] eqn:SD; [exfalso; subst D; cbn [app sorted_dates fold_right] in SD; now apply insert_not_nil in SD|].
  assert (ID : In d D). { assert (X : In d (D ++ D)) by (apply sorted_in; rewrite SD; now left). apply in_app_or in X. tauto. }
  cbn [mapM]. assert (PD : pick_date (combine (D ++ D) (names ++ names)) d = Err IndexError); [|now rewrite PD].
  unfold pick_date. change (@combine (text * text * (text * text)) text (D ++ D) (names ++ names)) with (@combine tdate text (D ++ D) (names ++ names)). rewrite combine_app' by exact L. rewrite filter_app, map_app. match goal with |- match ?u ++ _ with _ => _ end = _ => set (q := u) end.
  assert (Q : q <> []).
  { apply In_nth_error in ID as (i & N). assert (LI : i < List.length D) by (apply nth_error_Some; intros Z; pose proof (eq_trans (eq_sym N) Z) as X; discriminate X). destruct (nth_error names i) as [f|] eqn:NF; [|apply nth_error_None in NF; lia].
    assert (X : In f q). { unfold q. apply in_map_iff. exists (d, f). split; [reflexivity|]. apply filter_In. split; [|apply tdate_refl]. clear - N NF. revert N NF. generalize D. intros l. revert names i. induction l as [|x l IH]; intros [|y names] [|i] N NF; cbn in *; try discriminate; [injection N as ->; injection NF as ->; now left|]. right. now apply (IH _ i). }
    intros Z. rewrite Z in X. destruct X. }
  assert (QV : forall f, In f q -> parse_version f = Err IndexError). { intros f I. apply H. unfold q in I. apply in_map_iff in I as ((u & f') & <- & I). apply filter_In in I as (I & _). now apply in_combine_r in I. }
  clearbody q. destruct q as [|f q]; [now contradiction Q|]. cbn [app]. destruct (q ++ f :: q) eqn:Z; [destruct q; discriminate|].
  rewrite (QV f (or_introl eq_refl)). reflexivity.
Qed.
Theorem C121_gfz5_refuted : forall v0 v1 files f, Forall entry_name files -> Forall (dated "GSM") files -> In f files -> field_name "GSM" number (fun y => y = chars "EIGEN_G---_005a" \/ y = chars "EIGEN_GK2-_005a") f ->
  index_lines files ("GFZ", "RL05", "GSM")%string [v0; v1] = Err IndexError.
Proof.
  intros v0 v1 files f EN DT IF W. rewrite Forall_forall in EN, DT. assert (A0 : a_mission (Some "GRAC"%string)) by (intros w E; injection E as <-; cbn; auto). assert (A1 : a_mission (Some "GRFO"%string)) by (intros w E; injection E as <-; cbn; auto).
  set (rest := fun y => y = chars "EIGEN_G---_005a" \/ y = chars "EIGEN_GK2-_005a") in *. assert (O : old_release "GFZ" "RL05" "GSM" rest) by constructor.
  destruct (old_names _ _ _ rest _ "BA01" (Version v0) O A0) as (r0 & E0 & I0). assert (E1 : compile_pattern "GFZ" "RL05" "GSM" (Some "GRFO"%string) "BA01" (Version v1) = Ok r0) by (rewrite <- E0; reflexivity). rewrite (index_lines_ok files ("GFZ", "RL05", "GSM")%string v0 v1 r0 r0 E0 E1).
  rewrite twice_fails; [reflexivity| |].
  - intros Z. assert (X : In f (filter (matches r0) files)) by (apply filter_In; split; [exact IF|]; apply I0; [now apply EN|exact W]). rewrite Z in X. destruct X.
  - intros g I. apply filter_In in I as (IG & M). apply I0 in M; [|now apply EN]. destruct (old_parts _ _ _ _ g O (EN g IG) (DT g IG) M) as (x & R & E & PS & (PR & PM)). split; [eexists; now apply (C119_period g x)|]. apply (C119_no_version g x R E); [rewrite PS; nochar|rewrite PM; nochar|rewrite PR; cbn; lia].
Qed.
Print Assumptions C121_gfz5_refuted.

(** REFUTED: products of Release 5 of the CSR and the GFZ other than the fields have no mission in their names, but only names with a mission are looked for: no file is listed *)
Theorem C121_dealiasing_refuted : forall proc dset v0 v1 files, In proc ["CSR"; "GFZ"]%string -> In dset ["GAA"; "GAB"; "GAC"; "GAD"]%string -> Forall entry_name files ->
  (forall f m a b, In f files -> In m ["GRAC"; "GRFO"]%string -> f <> a ++ chars "_" ++ chars m ++ chars "_" ++ b) -> index_lines files (proc, "RL05", dset)%string [v0; v1] = Ok [].
Proof.
  intros proc dset v0 v1 files IP ID EN NM. rewrite Forall_forall in EN. assert (IP' : In proc ["CSR"; "GFZ"; "JPL"]%string) by (cbn in *; tauto). assert (ID' : In dset ["GAA"; "GAB"; "GAC"; "GAD"; "GSM"]%string) by (cbn in *; tauto).
  assert (NO : ~ own_pattern proc "RL05" dset). { unfold own_pattern. intros [(-> & _)|(-> & _)]; [cbn in IP|cbn in ID]; intuition discriminate. }
  assert (ST : forall m v, In m ["GRAC"; "GRFO"]%string -> exists r, compile_pattern proc "RL05" dset (Some m) "BA01" (Version v) = Ok r /\ filter (matches r) files = []).
  { intros m v IM. assert (AM : a_mission (Some m)) by (intros w E; injection E as <-; exact IM). destruct (C121_other_products proc "RL05" dset (Some m) "BA01" (Version v) [] IP' ID' AM NO ltac:(constructor)) as (r & E & _). exists r. split; [exact E|].
    destruct (filter (matches r) files) as [|f l] eqn:F; [reflexivity|]. exfalso. assert (I : In f (filter (matches r) files)) by (rewrite F; now left). apply filter_In in I as (I & M). destruct (C121_other_products proc "RL05" dset (Some m) "BA01" (Version v) f IP' ID' AM NO (proj1 (EN f I))) as (r' & E' & H).
    rewrite E in E'. injection E' as <-. apply H in M as (y & z & -> & C & s & t & PS & PT & ->). apply (NM _ m (chars dset ++ chars "-2_" ++ s) (t ++ z) I IM). rewrite <- !app_assoc. reflexivity. }
  destruct (ST "GRAC"%string v0 ltac:(cbn; auto)) as (r0 & E0 & F0). destruct (ST "GRFO"%string v1 ltac:(cbn; auto)) as (r1 & E1 & F1). rewrite (index_lines_ok files (proc, "RL05", dset)%string v0 v1 r0 r1 E0 E1), F0, F1. reflexivity.
Qed.
(** both versions are needed *)
Theorem C121_versions : forall files p versions, List.length versions < 2 -> exists e, index_lines files p versions = Err e.
Proof.
  intros files ((pr, rl), ds) versions L. unfold index_lines, missions. cbn [mapM]. destruct (granules files (pr, rl, ds) versions (0, "GRAC"%string)) as [a|e]; [|eexists; reflexivity]. cbn [bind]. unfold granules. cbn [fst]. replace (nth_error versions 1) with (@None text) by (symmetry; apply nth_error_None; lia). eexists. reflexivity.
Qed.
(** ** the run: a product is asked for if its centre, release and product are *)
Definition asked (proc drel dset : list string) (p : product) : Prop := let '(pr, rl, ds) := p in In pr proc /\ In rl drel /\ In ds dset.
Lemma products_iff proc drel dset p : In p (products proc drel dset) <-> asked proc drel dset p.
Proof.
  destruct p as ((pr, rl), ds). unfold products, asked. rewrite in_flat_map. split.
  - intros (a & IA & I). apply in_flat_map in I as (b & IB & I). apply in_map_iff in I as (c & E & IC). injection E as <- <- <-. auto.
  - intros (A & B & C). exists pr. split; [exact A|]. apply in_flat_map. exists rl. split; [exact B|]. apply in_map_iff. eauto.
Qed.
Lemma same_iff p q : same p q = true <-> p = q.
Proof. destruct p as ((a, b), c), q as ((d, e), g). unfold same. rewrite !andb_true_iff, !String.eqb_eq. split; [intros ((-> & ->) & ->); reflexivity|intros E; injection E as -> -> ->; auto]. Qed.
Lemma run_files ps versions : forall k k' r, make_indices k ps versions = (k', r) -> forall p, x_files k' p = x_files k p.
Proof.
  induction ps as [|p ps IH]; cbn [make_indices]; intros k k' r H q; [injection H as <- <-; reflexivity|]. destruct (x_files k p) as [files|]; [|now apply (IH _ _ _ H)]. destruct (index_lines files p versions) as [l|e]; [|injection H as <- <-; reflexivity]. rewrite (IH _ _ _ H). reflexivity.
Qed.
Definition product_dec (a b : product) : {a = b} + {a <> b}.
Proof. unfold product in *. repeat decide equality. Defined.
Lemma run_ok ps versions : forall k k', make_indices k ps versions = (k', Ok tt) -> forall p,
  (In p ps -> forall files, x_files k p = Some files -> exists l, index_lines files p versions = Ok l /\ x_index k' p = Some l) /\
  (~ In p ps \/ x_files k p = None -> x_index k' p = x_index k p).
Proof.
  induction ps as [|q ps IH]; cbn [make_indices]; intros k k' H p; [injection H as <-; split; [intros []|reflexivity]|]. destruct (x_files k q) as [fs|] eqn:FQ.
  - destruct (index_lines fs q versions) as [l|e] eqn:EL; [|discriminate]. destruct (IH _ _ H p) as (A & B). cbn [put_index x_files x_index] in A, B. split.
    + intros I files E. destruct (In_dec product_dec p ps) as [IP|NP]; [now apply A|]. destruct I as [->|I]; [|contradiction]. rewrite E in FQ. injection FQ as <-. exists l. split; [exact EL|]. rewrite B by auto. now rewrite (proj2 (same_iff p p) eq_refl).
    + intros [N|N].
      * rewrite B by (left; intros I; apply N; now right). destruct (same p q) eqn:S; [apply same_iff in S; subst; exfalso; apply N; now left|reflexivity].
      * rewrite B by auto. destruct (same p q) eqn:S; [apply same_iff in S; subst; congruence|reflexivity].
  - destruct (IH _ _ H p) as (A & B). split.
    + intros [->|I] files E; [congruence|]. now apply A.
    + intros [N|N]; apply B; [left; intros I; apply N; now right|now right].
Qed.
(** every directory that is asked for and exists has its index; nothing else changes *)
Theorem C121_run : forall k proc drel dset versions k', make_grace_index k proc drel dset versions = (k', Ok tt) -> forall p,
  x_files k' p = x_files k p /\
  (asked proc drel dset p -> forall files, x_files k p = Some files -> exists l, index_lines files p versions = Ok l /\ x_index k' p = Some l) /\
  (~ asked proc drel dset p \/ x_files k p = None -> x_index k' p = x_index k p).
Proof.
  intros k proc drel dset versions k' H p. unfold make_grace_index in H. destruct (run_ok _ _ _ _ H p) as (A & B). split; [now apply (run_files _ _ _ _ _ H)|]. rewrite products_iff in A, B. auto.
Qed.
(** a directory whose index cannot be made ends the run: the indices made before are there, all others are as they were *)
Theorem C121_stopped : forall k proc drel dset versions k' e, make_grace_index k proc drel dset versions = (k', Err e) -> exists before p after files,
  products proc drel dset = before ++ p :: after /\ x_files k p = Some files /\ index_lines files p versions = Err e /\
  (forall q fs, In q before -> x_files k q = Some fs -> exists l, index_lines fs q versions = Ok l /\ x_index k' q = Some l) /\ (forall q, ~ In q before -> x_index k' q = x_index k q).
Proof.
  intros k proc drel dset versions k' e H. unfold make_grace_index in H. remember (products proc drel dset) as ps. clear Heqps.
  assert (X : exists before p after files, ps = before ++ p :: after /\ x_files k p = Some files /\ index_lines files p versions = Err e /\ make_indices k before versions = (k', Ok tt)).
  { revert k H. induction ps as [|q ps IH]; cbn [make_indices]; intros k H; [discriminate|]. destruct (x_files k q) as [fs|] eqn:FQ.
    - destruct (index_lines fs q versions) as [l|e'] eqn:EL.
      + destruct (IH _ H) as (before & p & after & files & -> & F & E & R). exists (q :: before), p, after, files. cbn [make_indices app]. rewrite FQ, EL. auto.
      + injection H as <- <-. exists [], q, ps, fs. auto.
    - destruct (IH _ H) as (before & p & after & files & -> & F & E & R). exists (q :: before), p, after, files. cbn [make_indices app]. rewrite FQ. auto. }
  destruct X as (before & p & after & files & E & F & EL & R). exists before, p, after, files. split; [exact E|]. split; [exact F|]. split; [exact EL|]. split.
  - intros q fs I Q. now apply (run_ok _ _ _ _ R q).
  - intros q N. apply (run_ok _ _ _ _ R q). now left.
Qed.
Print Assumptions C121_stopped.
(** two months in a directory of Release 6, one of them in two versions *)
Example example_index : index_lines [chars "GSM-2_2018152-2018181_GRFO_UTCSR_BA01_0601.gz"; chars "GSM-2_2002095-2002120_GRAC_UTCSR_BA01_0600.gz"; chars "GSM-2_2002095-2002120_GRAC_UTCSR_BB01_0600.gz"; chars "GSM-2_2002095-2002120_GRAC_UTCSR_BA01_0601"; chars "README.txt"]
  ("CSR", "RL06", "GSM")%string [chars "0"; chars "1"] = Ok [chars "GSM-2_2002095-2002120_GRAC_UTCSR_BA01_0600.gz"; chars "GSM-2_2018152-2018181_GRFO_UTCSR_BA01_0601.gz"].
Proof. vm_compute. reflexivity. Qed.
Example example_old : index_lines [chars "GSM-2_2002095-2002120_0021_UTCSR_0060_0005.gz"] ("CSR", "RL05", "GSM")%string [chars "0"; chars "1"] = Ok [chars "GSM-2_2002095-2002120_0021_UTCSR_0060_0005.gz"].
Proof. vm_compute. reflexivity. Qed.
Example example_gfz5 : index_lines [chars "GSM-2_2002095-2002120_0021_EIGEN_G---_005a.gz"] ("GFZ", "RL05", "GSM")%string [chars "0"; chars "1"] = Err IndexError.
Proof. vm_compute. reflexivity. Qed.
