(** C120: dates from the names of the files of the ICGEM (GRAZ and Swarm), NameModel.parse_gfc_file *)
From Coq Require Import Ascii String List Arith Lia Bool ZArith QArith ZifyBool ZifyNat.
From Verif Require Import Base TimeModel TimeSpec UtilModel TextModel NcIndexModel GraceModel NameModel NameProofs PropName PropName2.
From Verif Require PropTime.
Import ListNotations.
Close Scope Z_scope.
Close Scope Q_scope.
Open Scope nat_scope.
Open Scope list_scope.

(** ** specification: the same letters up to the case *)
Definition alike (w : string) (a : text) : Prop := Forall2 (fun c d => lower c = lower d) (chars w) a.
Definition some_number (d : text) : Prop := d <> [] /\ Forall (fun c => is_digit c = true) d.
(** ITSG-Grace2018_n60_2018-06.gfc, model_ocean_2018-06.gfc, AOD1B_RL06_atmosphere_2018-06.gfc *)
Definition itsg_front (f : text) : Prop := exists p s d t, f = p ++ [s] ++ d ++ t /\
  (alike "model" p \/ alike "ITSG" p \/ exists q r, p = q ++ r /\ alike "AOD1B_RL" q /\ some_number r) /\ (s = "-"%char \/ s = "_"%char) /\ (exists w, In w itsg_products /\ alike w d) /\
  (t = [] \/ exists q r, t = q ++ r /\ alike "_n" q /\ some_number r).
Definition itsg_name (f y m n : text) : Prop := exists e, itsg_front f /\ some_number y /\ some_number m /\ alike ".gfc" e /\ n = f ++ chars "_" ++ y ++ chars "-" ++ m ++ e.
(** GAC_Swarm_90_06_2018.gfc *)
Definition swarm_model_name (y m n : text) : Prop := exists s t e w, (alike "GAA" s \/ alike "GAB" s \/ alike "GAC" s \/ alike "GAD" s) /\ alike "_Swarm_" w /\ some_number t /\ number_of 2 m /\ number_of 4 y /\ (alike ".gfc" e \/ alike ".ZIP" e) /\
  n = s ++ w ++ t ++ chars "_" ++ m ++ chars "_" ++ y ++ e.
(** SW_OPER_EGF_SHA_2__20131201T000000_20131231T235959_0101.gfc *)
Definition swarm_name (a b n : text) : Prop := exists s x p r e, alike "SW" s /\ alike "EGF_SHA_2" p /\ (alike ".gfc" e \/ alike ".ZIP" e) /\ one_line x /\ one_line a /\ one_line b /\ one_line r /\
  without "_"%char x /\ without "_"%char a /\ without "_"%char b /\ without "_"%char r /\ without "."%char r /\ without "."%char x /\ without "."%char a /\ without "."%char b /\
  n = s ++ chars "_" ++ x ++ chars "_" ++ p ++ chars "__" ++ a ++ chars "_" ++ b ++ chars "_" ++ r ++ e.

(** ** letters *)
Lemma lang_lit_i w g a b : lang (lit_i w) g a b <-> g = [] /\ alike w a.
Proof.
  unfold lit_i, alike, same_letter. cbn [lang]. split; intros (-> & H); (split; [reflexivity|]); clear - H; induction H; constructor; auto; now apply Nat.eqb_eq.
Qed.

Lemma lower_self c d : lower c = lower d -> (nat_of_ascii c < 65 \/ nat_of_ascii c = 95) -> c = d.
Proof. unfold lower. intros H R. apply nat_of_ascii_inj. destruct ((65 <=? nat_of_ascii c) && (nat_of_ascii c <=? 90)) eqn:A; destruct ((65 <=? nat_of_ascii d) && (nat_of_ascii d <=? 90)) eqn:B; rewrite ?andb_true_iff, ?andb_false_iff, ?Nat.leb_le, ?Nat.leb_gt in *; lia. Qed.
Lemma alike_exact w a : forallb (fun c => (nat_of_ascii c <? 65) || (nat_of_ascii c =? 95)) (chars w) = true -> alike w a -> a = chars w.
Proof.
  unfold alike. intros B H. induction H as [|c d l a E F IH]; [reflexivity|]. cbn [forallb] in B. apply andb_true_iff in B as (B1 & B2). rewrite orb_true_iff, Nat.ltb_lt, Nat.eqb_eq in B1. rewrite (IH B2). f_equal. symmetry. now apply lower_self.
Qed.
Lemma alike_refl w : alike w (chars w).
Proof. unfold alike. induction (chars w); constructor; auto. Qed.
(** how often a character that is not a letter occurs *)
Definition times_in (c : ascii) (s : text) : nat := count_occ ascii_dec s c.
Lemma times_app c a b : times_in c (a ++ b) = times_in c a + times_in c b.
Proof. apply count_occ_app. Qed.
Lemma times_0 c a : without c a <-> times_in c a = 0.
Proof. unfold without, times_in. apply count_occ_not_In. Qed.
Lemma alike_times c w a : (nat_of_ascii c < 65 \/ nat_of_ascii c = 95) -> alike w a -> times_in c a = times_in c (chars w).
Proof.
  unfold alike. intros R H. induction H as [|d e l a E F IH]; [reflexivity|]. unfold times_in in *. cbn [count_occ]. destruct (ascii_dec e c) as [->|NE], (ascii_dec d c) as [->|ND]; try congruence.
  - exfalso. apply ND. symmetry. apply lower_self; [congruence|exact R].
  - exfalso. apply NE. symmetry. now apply lower_self.
Qed.
Lemma number_times c a : is_digit c = false -> Forall (fun c => is_digit c = true) a -> times_in c a = 0.
Proof. intros H F. apply times_0. intros I. rewrite Forall_forall in F. apply F in I. congruence. Qed.
Lemma last_sep c a b a' b' : a ++ [c] ++ b = a' ++ [c] ++ b' -> times_in c b = 0 -> times_in c b' = 0 -> a = a' /\ b = b'.
Proof.
  revert a'. induction a as [|d a IH]; intros [|e a'] E B B'; cbn [app] in E.
  - injection E as E. auto.
  - injection E as <- E. exfalso. change (c :: b') with ([c] ++ b') in E. rewrite E, !times_app in B. unfold times_in in B. cbn [count_occ] in B. destruct (ascii_dec c c); [lia|congruence].
  - injection E as -> E. exfalso. change (c :: b) with ([c] ++ b) in E. rewrite <- E, !times_app in B'. unfold times_in in B'. cbn [count_occ] in B'. destruct (ascii_dec c c); [lia|congruence].
  - injection E as -> E. destruct (IH a' E B B') as (-> & ->). auto.
Qed.
Lemma first_sep c a b a' b' : a ++ [c] ++ b = a' ++ [c] ++ b' -> times_in c a = 0 -> times_in c a' = 0 -> a = a' /\ b = b'.
Proof.
  revert a'. induction a as [|d a IH]; intros [|e a'] E B B'; cbn [app] in E.
  - injection E as E. auto.
  - injection E as <- E. exfalso. unfold times_in in B'. cbn [count_occ] in B'. destruct (ascii_dec c c); [lia|congruence].
  - injection E as -> E. exfalso. unfold times_in in B. cbn [count_occ] in B. destruct (ascii_dec c c); [lia|congruence].
  - injection E as -> E. destruct (IH a' E) as (-> & ->); [| |auto].
    + unfold times_in in *. cbn [count_occ] in B. destruct (ascii_dec e c); [lia|exact B].
    + unfold times_in in *. cbn [count_occ] in B'. destruct (ascii_dec e c); [lia|exact B'].
Qed.
(** the ending *)
Lemma ending e : alike ".gfc" e \/ alike ".ZIP" e -> exists e', e = [ "."%char ] ++ e' /\ times_in "."%char e' = 0 /\ times_in "_"%char e' = 0.
Proof.
  intros H. assert (T : times_in "."%char e = 1 /\ times_in "_"%char e = 0) by (assert (R1 : nat_of_ascii "." < 65 \/ nat_of_ascii "." = 95) by (cbn; lia); assert (R2 : nat_of_ascii "_" < 65 \/ nat_of_ascii "_" = 95) by (cbn; lia); destruct H as [H|H]; rewrite (alike_times _ _ _ R1 H), (alike_times _ _ _ R2 H); split; reflexivity).
  assert (D : exists e', e = "."%char :: e'). { destruct H as [H|H]; unfold alike in H; cbn in H; inversion H as [|c d l e' E F]; subst; exists e'; f_equal; symmetry; (apply lower_self; [exact E|cbn; lia]). }
  destruct D as (e' & ->). exists e'. split; [reflexivity|]. destruct T as (T1 & T2). change ("."%char :: e') with (["."%char] ++ e') in *. rewrite times_app in T1, T2. change (times_in "." ["."%char]) with 1 in T1. change (times_in "_" ["."%char]) with 0 in T2. lia.
Qed.
Lemma groups_some_digits g a b : lang some_digits g a b -> g = [] /\ some_number a.
Proof. intros H. apply lang_some_digits in H as (-> & n & L & F). split; [reflexivity|]. split; [intros ->; discriminate|exact F]. Qed.
Lemma some_digits_lang a b : some_number a -> lang some_digits [] a b.
Proof. intros (N & F). apply lang_some_digits. split; [reflexivity|]. destruct a as [|c a]; [congruence|]. exists (List.length a). split; [reflexivity|exact F]. Qed.
Lemma lang_sq_ok r1 r2 g1 g2 a1 a2 b : lang r1 g1 a1 (a2 ++ b) -> lang r2 g2 a2 b -> lang (Sq r1 r2) (g1 ++ g2) (a1 ++ a2) b.
Proof. intros. exists g1, g2, a1, a2. auto. Qed.
Lemma lang_group_ok r a b : lang r [] a b -> lang (Group r) [a] a b.
Proof. intros. exists []. auto. Qed.
Lemma ors_lit_i ws g a b : ws <> [] -> (lang (ors (map lit_i ws)) g a b <-> g = [] /\ exists w, In w ws /\ alike w a).
Proof.
  assert (GZ : forall ws, groups (ors (map lit_i ws)) = 0). { clear. induction ws as [|w [|v ws] IH]; [reflexivity|reflexivity|]. exact IH. }
  induction ws as [|w [|v ws] IH]; intros NE; [congruence| |].
  - cbn [map ors]. rewrite lang_lit_i. split; [intros (-> & H); split; [reflexivity|]; exists w; cbn; auto|intros (-> & x & [->|[]] & H); auto].
  - change (ors (map lit_i (w :: v :: ws))) with (Or (lit_i w) (ors (map lit_i (v :: ws)))). cbn [lang]. rewrite (GZ (v :: ws)). change (groups (lit_i w)) with 0. cbn [blanks repeat]. split.
    + intros [(g1 & -> & L)|(g2 & -> & L)].
      * apply lang_lit_i in L as (-> & H). split; [reflexivity|]. exists w. cbn. auto.
      * apply IH in L as (-> & x & I & H); [|discriminate]. split; [reflexivity|]. exists x. split; [right; exact I|exact H].
    + intros (-> & x & [->|I] & H); [left; exists []; split; [reflexivity|now apply lang_lit_i]|]. right. exists []. split; [reflexivity|]. apply IH; [discriminate|]. split; [reflexivity|]. eauto.
Qed.

Lemma lang_groups r : forall g a b, lang r g a b -> List.length g = groups r.
Proof.
  induction r as [p|p|n p|same w|r1 IH1 r2 IH2|r1 IH1 r2 IH2|r IH|r IH|]; intros g a b L; cbn [lang groups] in *; try (destruct L as (-> & _); reflexivity).
  - destruct L as (g1 & g2 & a1 & a2 & -> & _ & L1 & L2). rewrite app_length, (IH1 _ _ _ L1), (IH2 _ _ _ L2). reflexivity.
  - destruct L as [(g1 & -> & L)|(g2 & -> & L)]; unfold blanks; rewrite app_length, repeat_length; [rewrite (IH1 _ _ _ L)|rewrite (IH2 _ _ _ L)]; lia.
  - destruct L as [L|(-> & _)]; [exact (IH _ _ _ L)|]. apply repeat_length.
  - destruct L as (g' & -> & L). cbn. now rewrite (IH _ _ _ L).
Qed.
Lemma group_only r g a b : groups r = 0 -> lang (Group r) g a b -> g = [a] /\ lang r [] a b.
Proof. intros Z L. apply lang_group in L as (g' & -> & L). pose proof (lang_groups _ _ _ _ L) as LG. rewrite Z in LG. destruct g'; [auto|discriminate]. Qed.
(** ** GRAZ *)
Lemma itsg_lang g m b : lang itsg_pattern g m b -> exists u v t y mo e front, g = [u; v; t; y; mo; e] /\ m = front ++ chars "_" ++ y ++ chars "-" ++ mo ++ e /\ some_number y /\ some_number mo /\ alike ".gfc" e.
Proof.
  unfold itsg_pattern. cbn [seqs]. intros L. do 8 (apply lang_sq in L as (?g & ?g & ?a & ?a & -> & -> & ? & L)).
  apply group_only in L as (-> & L); [|reflexivity]. apply lang_lit_i in L as (_ & L).
  match goal with H : lang (Maybe _) ?gg _ _ |- _ => assert (G3 : List.length gg = 1) by (rewrite (lang_groups _ _ _ _ H); reflexivity) end.
  match goal with H : lang (Times 1 _) ?gg _ _ |- _ => assert (G2 : List.length gg = 0) by (rewrite (lang_groups _ _ _ _ H); reflexivity) end.
  repeat match goal with
  | H : lang (lit_i _) _ _ _ |- _ => apply lang_lit_i in H as (-> & H); apply alike_exact in H; [subst|reflexivity]
  | H : lang (Group _) _ _ _ |- _ => apply group_only in H as (-> & H); [|reflexivity]
  | H : lang some_digits _ _ _ |- _ => apply groups_some_digits in H as (_ & H)
  | H : List.length ?x = 0 |- _ => destruct x; [clear H|discriminate]
  | H : List.length ?x = 1 |- _ => destruct x as [|? [|? ?]]; [discriminate| clear H|discriminate]
  end.
  match goal with |- context[?p ++ ?q ++ ?r ++ ?s ++ chars "_" ++ ?y ++ chars "-" ++ ?m ++ ?e] => exists p, r, t, y, m, e, (p ++ q ++ r ++ s) end.
  rewrite <- !app_assoc. repeat split; assumption || (match goal with H : some_number _ |- _ => apply H end).
Qed.
Lemma number_dots a : some_number a -> times_in "."%char a = 0 /\ times_in "_"%char a = 0 /\ times_in "-"%char a = 0.
Proof. intros (_ & F). repeat split; (apply number_times; [reflexivity|exact F]). Qed.
Lemma itsg_ok f y m n b : itsg_name f y m n -> exists g, lang itsg_pattern g n b.
Proof.
  intros (e & (p & s & d & t & -> & P & S1 & D & T) & Y & M & E & ->). unfold itsg_pattern. cbn [seqs].
  assert (PL : forall b, lang (ors [Sq (lit_i "AOD1B_RL") some_digits; lit_i "model"; lit_i "ITSG"]) [] p b).
  { intros b0. cbn [ors]. destruct P as [P|[P|(q & r & -> & Q1 & R)]].
    - right. exists []. split; [reflexivity|]. left. exists []. split; [reflexivity|]. now apply lang_lit_i.
    - right. exists []. split; [reflexivity|]. right. exists []. split; [reflexivity|]. now apply lang_lit_i.
    - left. exists []. split; [reflexivity|]. apply (lang_sq_ok _ _ [] []); [now apply lang_lit_i|now apply some_digits_lang]. }
  assert (TL : exists gt, forall b, lang (Maybe (Group (Sq (lit_i "_n") some_digits))) gt t b).
  { destruct T as [->|(q & r & -> & Q1 & R)]; [exists [[]]; right; auto|]. exists [q ++ r]. intros b0. left. apply lang_group_ok. apply (lang_sq_ok _ _ [] []); [now apply lang_lit_i|now apply some_digits_lang]. }
  destruct TL as (gt & TL). exists ([p] ++ [] ++ [d] ++ gt ++ [] ++ [y] ++ [] ++ [m] ++ [e]). rewrite <- !app_assoc.
  repeat (apply lang_sq_ok).
  - apply lang_group_ok, PL.
  - cbn. repeat split. constructor; [|constructor]. unfold dash_or_bar. destruct S1 as [->| ->]; reflexivity.
  - apply lang_group_ok. apply (ors_lit_i itsg_products); [discriminate|]. auto.
  - apply TL.
  - apply lang_lit_i. split; [reflexivity|apply (alike_refl "_")].
  - apply lang_group_ok, some_digits_lang, Y.
  - apply lang_lit_i. split; [reflexivity|apply (alike_refl "-")].
  - apply lang_group_ok, some_digits_lang, M.
  - apply lang_group_ok, lang_lit_i. auto.
Qed.
Theorem C120_itsg : forall parse p f y m dset, itsg_name f y m (base_name p) -> without "."%char f -> parse_gfc_file parse p "GRAZ" dset = month_dates y m.
Proof.
  intros parse p f y m dset IN W. unfold parse_gfc_file. cbn [String.eqb Ascii.eqb Bool.eqb]. destruct (itsg_ok f y m (base_name p) [] IN) as (g0 & L0).
  destruct (last_complete itsg_pattern (base_name p) [] (base_name p) [] g0) as (g & G); [|now rewrite app_nil_r|exact L0|].
  { intros g b L. apply itsg_lang in L as (? & ? & ? & ? & ? & ? & fr & _ & E & _). symmetry in E. apply app_eq_nil in E as (_ & E). discriminate. }
  rewrite G. cbn [bind]. apply last_sound in G as (a & m' & b & E & L). apply itsg_lang in L as (u & v & t & y' & mo' & e' & fr & -> & -> & Y' & M' & E').
  destruct IN as (e & _ & Y & M & EE & EN). rewrite EN in E. clear EN.
  destruct (ending e (or_introl EE)) as (q & -> & Q1 & Q2). destruct (ending e' (or_introl E')) as (q' & -> & Q1' & Q2'). apply times_0 in W.
  destruct (number_dots _ Y) as (Y1 & Y2 & Y3). destruct (number_dots _ M) as (M1 & M2 & M3). destruct (number_dots _ Y') as (Y1' & Y2' & Y3'). destruct (number_dots _ M') as (M1' & M2' & M3').
  assert (DOT : times_in "."%char (f ++ chars "_" ++ y ++ chars "-" ++ m) = 0) by (rewrite !times_app, W, Y1, M1; reflexivity).
  assert (E2 : (f ++ chars "_" ++ y ++ chars "-" ++ m) ++ ["."%char] ++ q = (a ++ fr ++ chars "_" ++ y' ++ chars "-" ++ mo') ++ ["."%char] ++ q' ++ b) by (rewrite <- !app_assoc in *; exact E).
  assert (TOT : times_in "."%char (a ++ fr ++ chars "_" ++ y' ++ chars "-" ++ mo') = 0).
  { pose proof (f_equal (times_in "."%char) E2) as C. rewrite (times_app _ _ (["."%char] ++ q)), (times_app _ _ (["."%char] ++ q' ++ b)), (times_app _ _ q), (times_app _ _ (q' ++ b)), DOT, Q1 in C. lia. }
  destruct (first_sep _ _ _ _ _ E2 DOT TOT) as (E3 & _).
  assert (E4 : (f ++ chars "_" ++ y) ++ ["-"%char] ++ m = (a ++ fr ++ chars "_" ++ y') ++ ["-"%char] ++ mo') by (rewrite <- !app_assoc in *; exact E3).
  destruct (last_sep _ _ _ _ _ E4 M3 M3') as (E5 & ->).
  assert (E6 : f ++ ["_"%char] ++ y = (a ++ fr) ++ ["_"%char] ++ y') by (rewrite <- !app_assoc in *; exact E5).
  destruct (last_sep _ _ _ _ _ E6 Y2 Y2') as (_ & ->). reflexivity.
Qed.
Print Assumptions C120_itsg.

(** ** Swarm models *)
Lemma swarm_model_lang g m b : lang swarm_model_pattern g m b -> exists s t mo y e front, g = [s; t; mo; y; e] /\ m = front ++ chars "_" ++ mo ++ chars "_" ++ y ++ e /\ number_of 2 mo /\ number_of 4 y /\ (alike ".gfc" e \/ alike ".ZIP" e).
Proof.
  unfold swarm_model_pattern. cbn [seqs]. intros L. do 7 (apply lang_sq in L as (?g & ?g & ?a & ?a & -> & -> & ? & L)).
  apply group_only in L as (-> & L); [|reflexivity]. apply (ors_lit_i [".gfc"; ".ZIP"]%string) in L as (_ & w & IW & L); [|discriminate].
  match goal with H : lang (lit_i "_Swarm_") ?gg _ _ |- _ => assert (G2 : List.length gg = 0) by (rewrite (lang_groups _ _ _ _ H); reflexivity) end.
  repeat match goal with
  | H : lang (lit_i "_") _ _ _ |- _ => apply lang_lit_i in H as (-> & H); apply alike_exact in H; [subst|reflexivity]
  | H : lang (Group _) _ _ _ |- _ => apply group_only in H as (-> & H); [|reflexivity]
  | H : lang (digits _) _ _ _ |- _ => destruct H as (_ & H)
  | H : List.length ?x = 0 |- _ => destruct x; [clear H|discriminate]
  end.
  match goal with |- context[?p ++ ?q ++ ?r ++ chars "_" ++ ?mo ++ chars "_" ++ ?y ++ ?e] => exists p, r, mo, y, e, (p ++ q ++ r) end.
  rewrite <- !app_assoc. repeat split; try (match goal with H : List.length ?x = _ /\ _ |- List.length ?x = _ => apply H | H : _ /\ Forall _ ?x |- Forall _ ?x => apply H end).
  cbn in IW. destruct IW as [<-|[<-|[]]]; auto.
Qed.
Lemma swarm_model_ok y m n b : swarm_model_name y m n -> exists g, lang swarm_model_pattern g n b.
Proof.
  intros (s & t & e & w & S1 & W & T & (LM & FM) & (LY & FY) & E & ->). unfold swarm_model_pattern. cbn [seqs]. exists ([s] ++ [] ++ [t] ++ [] ++ [m] ++ [] ++ [y] ++ [e]). repeat (apply lang_sq_ok).
  - apply lang_group_ok. apply (ors_lit_i ["GAA"; "GAB"; "GAC"; "GAD"]%string); [discriminate|]. split; [reflexivity|]. destruct S1 as [H|[H|[H|H]]]; eexists; (split; [|exact H]); cbn; auto.
  - now apply lang_lit_i.
  - apply lang_group_ok, some_digits_lang, T.
  - apply lang_lit_i. split; [reflexivity|apply (alike_refl "_")].
  - apply lang_group_ok. cbn. auto.
  - apply lang_lit_i. split; [reflexivity|apply (alike_refl "_")].
  - apply lang_group_ok. cbn. auto.
  - apply lang_group_ok. apply (ors_lit_i [".gfc"; ".ZIP"]%string); [discriminate|]. split; [reflexivity|]. destruct E as [H|H]; eexists; (split; [|exact H]); cbn; auto.
Qed.
Theorem C120_swarm_models : forall parse p y m dset, swarm_model_name y m (base_name p) -> dset <> "GSM"%string -> parse_gfc_file parse p "Swarm" dset = month_dates y m.
Proof.
  intros parse p y m dset IN ND. unfold parse_gfc_file. cbn [String.eqb Ascii.eqb Bool.eqb]. destruct (String.eqb_spec dset "GSM"); [contradiction|]. destruct (swarm_model_ok y m (base_name p) [] IN) as (g0 & L0).
  destruct (last_complete swarm_model_pattern (base_name p) [] (base_name p) [] g0) as (g & G); [|now rewrite app_nil_r|exact L0|].
  { intros g b L. apply swarm_model_lang in L as (? & ? & ? & ? & ? & fr & _ & E & _). symmetry in E. apply app_eq_nil in E as (_ & E). discriminate. }
  rewrite G. cbn [bind]. apply last_sound in G as (a & m' & b & E & L). apply swarm_model_lang in L as (u & t & mo' & y' & e' & fr & -> & -> & M' & Y' & E').
  destruct IN as (s & t0 & e & w & S1 & WS & T & M & Y & EE & EN). rewrite EN in E. clear EN.
  destruct (ending e EE) as (q & -> & Q1 & Q2). destruct (ending e' E') as (q' & -> & Q1' & Q2').
  assert (SN : forall n d, number_of n d -> times_in "."%char d = 0 /\ times_in "_"%char d = 0) by (intros n0 d (_ & F); split; (apply number_times; [reflexivity|exact F])).
  destruct (SN _ _ Y) as (Y1 & Y2). destruct (SN _ _ M) as (M1 & M2). destruct (SN _ _ Y') as (Y1' & Y2'). destruct (SN _ _ M') as (M1' & M2'). destruct (number_dots _ T) as (T1 & _).
  assert (R : nat_of_ascii "." < 65 \/ nat_of_ascii "." = 95) by (cbn; lia).
  assert (DOT : times_in "."%char (s ++ w ++ t0 ++ chars "_" ++ m ++ chars "_" ++ y) = 0).
  { rewrite !times_app, T1, Y1, M1, (alike_times _ _ _ R WS). destruct S1 as [H|[H|[H|H]]]; rewrite (alike_times _ _ _ R H); reflexivity. }
  assert (E2 : (s ++ w ++ t0 ++ chars "_" ++ m ++ chars "_" ++ y) ++ ["."%char] ++ q = (a ++ fr ++ chars "_" ++ mo' ++ chars "_" ++ y') ++ ["."%char] ++ q' ++ b) by (rewrite <- !app_assoc in *; exact E).
  assert (TOT : times_in "."%char (a ++ fr ++ chars "_" ++ mo' ++ chars "_" ++ y') = 0).
  { pose proof (f_equal (times_in "."%char) E2) as C. rewrite (times_app _ _ (["."%char] ++ q)), (times_app _ _ (["."%char] ++ q' ++ b)), (times_app _ _ q), (times_app _ _ (q' ++ b)), DOT, Q1 in C. lia. }
  destruct (first_sep _ _ _ _ _ E2 DOT TOT) as (E3 & _).
  assert (E4 : (s ++ w ++ t0 ++ chars "_" ++ m) ++ ["_"%char] ++ y = (a ++ fr ++ chars "_" ++ mo') ++ ["_"%char] ++ y') by (rewrite <- !app_assoc in *; exact E3).
  destruct (last_sep _ _ _ _ _ E4 Y2 Y2') as (E5 & ->).
  assert (E6 : (s ++ w ++ t0) ++ ["_"%char] ++ m = (a ++ fr) ++ ["_"%char] ++ mo') by (rewrite <- !app_assoc in *; exact E5).
  destruct (last_sep _ _ _ _ _ E6 M2 M2') as (_ & ->). reflexivity.
Qed.
(** ** Swarm data *)
Lemma swarm_lang g m b : lang swarm_pattern g m b -> exists s x p t1 t2 r e, g = [s; x; p; t1; t2; r; e] /\ m = s ++ chars "_" ++ x ++ chars "_" ++ p ++ chars "__" ++ t1 ++ chars "_" ++ t2 ++ chars "_" ++ r ++ e /\
  alike "SW" s /\ alike "EGF_SHA_2" p /\ (alike ".gfc" e \/ alike ".ZIP" e).
Proof.
  unfold swarm_pattern. cbn [seqs]. intros L. do 11 (apply lang_sq in L as (?g & ?g & ?a & ?a & -> & -> & ? & L)).
  apply group_only in L as (-> & L); [|reflexivity]. apply (ors_lit_i [".gfc"; ".ZIP"]%string) in L as (_ & w & IW & L); [|discriminate].
  repeat match goal with
  | H : lang (lit_i "_") _ _ _ |- _ => apply lang_lit_i in H as (-> & H); apply alike_exact in H; [subst|reflexivity]
  | H : lang (lit_i "__") _ _ _ |- _ => apply lang_lit_i in H as (-> & H); apply alike_exact in H; [subst|reflexivity]
  | H : lang (Group _) _ _ _ |- _ => apply group_only in H as (-> & H); [|reflexivity]
  | H : lang (lit_i "SW") _ _ _ |- _ => apply lang_lit_i in H as (_ & H)
  | H : lang (lit_i "EGF_SHA_2") _ _ _ |- _ => apply lang_lit_i in H as (_ & H)
  end.
  eexists _, _, _, _, _, _, _. split; [reflexivity|]. split; [reflexivity|]. split; [assumption|]. split; [assumption|]. cbn in IW. destruct IW as [<-|[<-|[]]]; auto.
Qed.
Lemma swarm_ok a1 a2 n b : swarm_name a1 a2 n -> exists g, lang swarm_pattern g n b.
Proof.
  intros (s & x & p & r & e & S1 & P & E & X & A1 & A2 & R & _ & _ & _ & _ & _ & _ & _ & _ & ->). unfold swarm_pattern. cbn [seqs].
  exists ([s] ++ [] ++ [x] ++ [] ++ [p] ++ [] ++ [a1] ++ [] ++ [a2] ++ [] ++ [r] ++ [e]).
  assert (FW : forall q b, one_line q -> lang (Group (Few any)) [q] q b) by (intros q b0 H; apply lang_group_ok; cbn; split; [reflexivity|now apply any_line]).
  assert (BL : forall w b, lang (lit_i w) [] (chars w) b) by (intros; apply lang_lit_i; split; [reflexivity|apply alike_refl]).
  repeat (apply lang_sq_ok); try (now apply FW); try apply BL.
  - apply lang_group_ok. now apply lang_lit_i.
  - apply lang_group_ok. now apply lang_lit_i.
  - apply lang_group_ok. apply (ors_lit_i [".gfc"; ".ZIP"]%string); [discriminate|]. split; [reflexivity|]. destruct E as [H|H]; eexists; (split; [|exact H]); cbn; auto.
Qed.
(** the two dates between the double bar and the release are given to the date parser *)
Theorem C120_swarm : forall parse p a b, swarm_name a b (base_name p) ->
  parse_gfc_file parse p "Swarm" "GSM" = match parse a, parse b with Some x, Some y => Ok (x, y) | _, _ => Err ValueError end.
Proof.
  intros parse p a b IN. unfold parse_gfc_file. cbn [String.eqb Ascii.eqb Bool.eqb]. destruct (swarm_ok a b (base_name p) [] IN) as (g0 & L0).
  destruct (last_complete swarm_pattern (base_name p) [] (base_name p) [] g0) as (g & G); [|now rewrite app_nil_r|exact L0|].
  { intros g c L. apply swarm_lang in L as (s & ? & ? & ? & ? & ? & ? & _ & E & S1 & _). symmetry in E. apply app_eq_nil in E as (_ & E). discriminate. }
  rewrite G. cbn [bind]. apply last_sound in G as (c & m' & d & E & L). apply swarm_lang in L as (s' & x' & p' & a' & b' & r' & e' & -> & -> & S' & P' & E').
  destruct IN as (s & x & pr & r & e & S1 & P & EE & _ & _ & _ & _ & WX & WA & WB & WR & DR & DX & DA & DB & EN). rewrite EN in E. clear EN. apply times_0 in WX. apply times_0 in WA. apply times_0 in WB. apply times_0 in WR. apply times_0 in DR. apply times_0 in DX. apply times_0 in DA. apply times_0 in DB.
  destruct (ending e EE) as (q & -> & Q1 & Q2). destruct (ending e' E') as (q' & -> & Q1' & Q2').
  assert (RD : nat_of_ascii "." < 65 \/ nat_of_ascii "." = 95) by (cbn; lia). assert (RU : nat_of_ascii "_" < 65 \/ nat_of_ascii "_" = 95) by (cbn; lia).
  set (FR := s ++ chars "_" ++ x ++ chars "_" ++ pr ++ chars "__" ++ a ++ chars "_" ++ b ++ chars "_" ++ r). set (FR' := c ++ s' ++ chars "_" ++ x' ++ chars "_" ++ p' ++ chars "__" ++ a' ++ chars "_" ++ b' ++ chars "_" ++ r').
  assert (E2 : FR ++ ["."%char] ++ q = FR' ++ ["."%char] ++ q' ++ d) by (unfold FR, FR'; rewrite <- !app_assoc in *; exact E).
  assert (DOT : times_in "."%char FR = 0) by (unfold FR; rewrite !times_app, DR, DX, DA, DB, (alike_times _ _ _ RD S1), (alike_times _ _ _ RD P); reflexivity).
  assert (TOT : times_in "."%char FR' = 0).
  { pose proof (f_equal (times_in "."%char) E2) as C. rewrite (times_app _ FR), (times_app _ FR'), (times_app _ _ q), (times_app _ _ (q' ++ d)), DOT, Q1 in C. lia. }
  destruct (first_sep _ _ _ _ _ E2 DOT TOT) as (E3 & _).
  assert (BARS : times_in "_"%char FR = 8) by (unfold FR; rewrite !times_app, WX, WA, WB, WR, (alike_times _ _ _ RU S1), (alike_times _ _ _ RU P); reflexivity).
  assert (BARS' : times_in "_"%char c + times_in "_"%char x' + times_in "_"%char a' + times_in "_"%char b' + times_in "_"%char r' = 0).
  { rewrite E3 in BARS. unfold FR' in BARS. rewrite !times_app, (alike_times _ _ _ RU S'), (alike_times _ _ _ RU P') in BARS. change (times_in "_" (chars "_")) with 1 in BARS. change (times_in "_" (chars "__")) with 2 in BARS. change (times_in "_" (chars "SW")) with 0 in BARS. change (times_in "_" (chars "EGF_SHA_2")) with 2 in BARS. lia. }
  assert (E4 : (s ++ chars "_" ++ x ++ chars "_" ++ pr ++ chars "__" ++ a ++ chars "_" ++ b) ++ ["_"%char] ++ r = (c ++ s' ++ chars "_" ++ x' ++ chars "_" ++ p' ++ chars "__" ++ a' ++ chars "_" ++ b') ++ ["_"%char] ++ r') by (unfold FR, FR' in E3; rewrite <- !app_assoc in *; exact E3).
  destruct (last_sep _ _ _ _ _ E4 WR ltac:(lia)) as (E5 & _).
  assert (E6 : (s ++ chars "_" ++ x ++ chars "_" ++ pr ++ chars "__" ++ a) ++ ["_"%char] ++ b = (c ++ s' ++ chars "_" ++ x' ++ chars "_" ++ p' ++ chars "__" ++ a') ++ ["_"%char] ++ b') by (rewrite <- !app_assoc in *; exact E5).
  destruct (last_sep _ _ _ _ _ E6 WB ltac:(lia)) as (E7 & ->).
  assert (E8 : (s ++ chars "_" ++ x ++ chars "_" ++ pr ++ ["_"%char]) ++ ["_"%char] ++ a = (c ++ s' ++ chars "_" ++ x' ++ chars "_" ++ p' ++ ["_"%char]) ++ ["_"%char] ++ a') by (rewrite <- !app_assoc in *; exact E7).
  destruct (last_sep _ _ _ _ _ E8 WA ltac:(lia)) as (_ & ->). unfold one_date. destruct (parse a') as [u|]; [|reflexivity]. cbn [bind]. destruct (parse b') as [v|]; reflexivity.
Qed.
Print Assumptions C120_swarm.
(** ** the dates of a month *)
Lemma int_of y : some_number y -> py_int y = Ok (digits_value y).
Proof. intros (N & F). now apply int_of_digits. Qed.
Theorem C120_month : forall y m, some_number y -> some_number m -> (1 <= digits_value m <= 12)%Z -> (digits_value y mod 4000 <> 0)%Z ->
  month_dates y m = Ok (mkstamp (digits_value y) (digits_value m) 1 0 0 0, mkstamp (digits_value y) (digits_value m) (inject_Z (month_len (greg_leap (digits_value y)) (digits_value m))) 23 59 59).
Proof.
  intros y m Y M R N. unfold month_dates. rewrite (int_of y Y), (int_of m M). cbn [bind]. rewrite PropTime.C01_calendar_days. replace (digits_value y mod 4000 =? 0)%Z with false by lia. cbn [negb]. rewrite andb_true_r.
  generalize dependent (digits_value m). generalize (greg_leap (digits_value y)). intros lp k K. unfold py_get. replace (k - 1 <? 0)%Z with false by lia. cbn [map List.length]. change (Z.of_nat 12) with 12%Z. replace ((0 <=? k - 1) && (k - 1 <? 12))%Z with true by lia.
  assert (C : k = 1%Z \/ k = 2%Z \/ k = 3%Z \/ k = 4%Z \/ k = 5%Z \/ k = 6%Z \/ k = 7%Z \/ k = 8%Z \/ k = 9%Z \/ k = 10%Z \/ k = 11%Z \/ k = 12%Z) by lia.
  repeat destruct C as [->|C]; try reflexivity. subst k. reflexivity.
Qed.
(** there is no month 13; REFUTED: month 00 is accepted, with the 31 days of December *)
Theorem C120_no_month : forall y m, some_number y -> some_number m -> (12 < digits_value m)%Z -> month_dates y m = Err IndexError.
Proof.
  intros y m Y M R. unfold month_dates. rewrite (int_of y Y), (int_of m M). cbn [bind]. rewrite PropTime.C01_calendar_days. unfold py_get. replace (digits_value m - 1 <? 0)%Z with false by lia. cbn [map List.length]. change (Z.of_nat 12) with 12%Z. replace ((0 <=? digits_value m - 1) && (digits_value m - 1 <? 12))%Z with false by lia. reflexivity.
Qed.
Theorem C120_month_zero_refuted : forall y m, some_number y -> some_number m -> digits_value m = 0%Z -> month_dates y m = Ok (mkstamp (digits_value y) 0 1 0 0 0, mkstamp (digits_value y) 0 31 23 59 59).
Proof. intros y m Y M R. unfold month_dates. rewrite (int_of y Y), (int_of m M), R. cbn [bind]. rewrite PropTime.C01_calendar_days. reflexivity. Qed.
(** other centres; names of no such form *)
Theorem C120_other_center : forall parse p proc dset, proc <> "GRAZ"%string -> proc <> "Swarm"%string -> parse_gfc_file parse p proc dset = Err UnboundLocalError.
Proof. intros parse p proc dset A B. unfold parse_gfc_file. destruct (String.eqb_spec proc "GRAZ"); [contradiction|]. destruct (String.eqb_spec proc "Swarm"); [contradiction|]. reflexivity. Qed.
Theorem C120_no_date : forall parse p dset, without "-"%char (base_name p) -> parse_gfc_file parse p "GRAZ" dset = Err IndexError.
Proof.
  intros parse p dset W. unfold parse_gfc_file. cbn [String.eqb Ascii.eqb Bool.eqb]. destruct (last_match itsg_pattern (base_name p)) as [g|e] eqn:G; [|apply last_error in G; now subst e]. exfalso.
  apply last_sound in G as (a & m & b & E & L). apply itsg_lang in L as (u & v & t & y' & mo' & e' & fr & _ & -> & _). apply W. rewrite E. rewrite !in_app_iff. right. left. right. right. right. left. now left.
Qed.
Print Assumptions C120_no_date.
Example C120_example : itsg_name (chars "ITSG-Grace2018_n60") (chars "2018") (chars "06") (base_name (chars "/data/GRAZ/ITSG-Grace2018_n60_2018-06.gfc")) /\
  swarm_model_name (chars "2016") (chars "12") (chars "GAC_Swarm_90_12_2016.ZIP") /\ swarm_name (chars "20131201T000000") (chars "20131231T235959") (chars "SW_OPER_EGF_SHA_2__20131201T000000_20131231T235959_0101.gfc").
Proof.
  assert (DG : forall s, forallb is_digit s = true -> Forall (fun c => is_digit c = true) s) by (intros s H; apply Forall_forall; now apply forallb_forall).
  assert (NM : forall s, s <> [] -> forallb is_digit s = true -> some_number s) by (intros; split; auto).
  split; [|split].
  - exists (chars ".gfc"). split; [|repeat split; try apply alike_refl; try discriminate; apply DG; reflexivity]. exists (chars "ITSG"), "-"%char, (chars "Grace2018"), (chars "_n60"). split; [reflexivity|]. split; [right; left; apply alike_refl|]. split; [now left|].
    split; [exists "Grace2018"%string; split; [cbn; tauto|apply alike_refl]|]. right. exists (chars "_n"), (chars "60"). split; [reflexivity|]. split; [apply alike_refl|]. apply NM; [discriminate|reflexivity].
  - exists (chars "GAC"), (chars "90"), (chars ".ZIP"), (chars "_Swarm_"). split; [right; right; left; apply alike_refl|]. split; [apply alike_refl|]. split; [apply NM; [discriminate|reflexivity]|]. repeat split; try (apply DG; reflexivity). right. apply alike_refl.
  - exists (chars "SW"), (chars "OPER"), (chars "EGF_SHA_2"), (chars "0101"), (chars ".gfc"). split; [apply alike_refl|]. split; [apply alike_refl|]. split; [left; apply alike_refl|]. unfold one_line, without. repeat split; try (repeat constructor; discriminate); try (cbn; intuition discriminate).
Qed.
