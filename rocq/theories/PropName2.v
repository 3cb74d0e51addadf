(** C119, continued: versions, the order of the dates, and the file that is kept *)
From Coq Require Import Ascii String List Arith Lia Bool ZArith Sorting.Sorted ZifyBool ZifyNat.
From Verif Require Import Base UtilModel TextModel ReduceModel ReduceProofs NcIndexModel NameModel NameProofs PropName.
From Verif Require PropTime PropSlr PropNcIndex.
Import ListNotations.
Close Scope Z_scope.
Open Scope nat_scope.
Open Scope list_scope.

(** ** numbers *)
Lemma fold_digits s : forall a, fold_left (fun a c => (10 * a + digit_value c)%Z) s a = (a * 10 ^ Z.of_nat (List.length s) + digits_value s)%Z.
Proof.
  unfold digits_value. induction s as [|c s IH]; intros a; cbn [fold_left List.length]; [cbn; lia|]. rewrite IH, (IH (10 * 0 + digit_value c)%Z). rewrite Nat2Z.inj_succ, Z.pow_succ_r by lia. ring.
Qed.
Lemma digits_cons c s : digits_value (c :: s) = (digit_value c * 10 ^ Z.of_nat (List.length s) + digits_value s)%Z.
Proof. unfold digits_value at 1. cbn [fold_left]. rewrite fold_digits. replace (10 * 0 + digit_value c)%Z with (digit_value c) by lia. reflexivity. Qed.
Lemma digit_range c : is_digit c = true -> (0 <= digit_value c <= 9)%Z /\ (digit_value c = Z.of_nat (nat_of_ascii c) - 48)%Z.
Proof. unfold is_digit, digit_value. cbv zeta. rewrite andb_true_iff, !Nat.leb_le. lia. Qed.
Lemma digits_range s : Forall (fun c => is_digit c = true) s -> (0 <= digits_value s < 10 ^ Z.of_nat (List.length s))%Z.
Proof.
  induction 1 as [|c s H F IH]; [cbn; lia|]. rewrite digits_cons. destruct (digit_range c H) as (B & _). cbn [List.length]. rewrite Nat2Z.inj_succ, Z.pow_succ_r by lia. nia.
Qed.
Lemma nat_of_ascii_inj c d : nat_of_ascii c = nat_of_ascii d -> c = d.
Proof. intros H. rewrite <- (ascii_nat_embedding c), <- (ascii_nat_embedding d). now rewrite H. Qed.
Lemma str_eqb_iff a b : str_eqb a b = true <-> a = b.
Proof. unfold str_eqb. destruct (list_eq_dec ascii_dec a b); split; congruence. Qed.
(** numbers with the same number of digits: the order of the texts is the order of the numbers *)
Theorem C119_string_order : forall n a b, number_of n a -> number_of n b -> (text_ltb a b = true <-> (digits_value a < digits_value b)%Z) /\ (a = b <-> digits_value a = digits_value b).
Proof.
  intros n a b (LA & FA) (LB & FB). revert n b LA LB FB. induction FA as [|c a HC FA IH]; intros n b LA LB FB.
  - destruct b; [|cbn in *; lia]. cbn. split; split; intros; try discriminate; try lia; reflexivity.
  - destruct b as [|d b]; [cbn in *; lia|]. inversion FB as [|? ? HD FB']; subst. cbn [List.length] in *. destruct (IH (List.length a) b eq_refl ltac:(lia) FB') as (I1 & I2). rewrite !digits_cons. replace (List.length b) with (List.length a) by lia.
    destruct (digit_range c HC) as (C1 & C2). destruct (digit_range d HD) as (E1 & E2). pose proof (digits_range a FA) as RA. pose proof (digits_range b FB') as RB. replace (List.length b) with (List.length a) in RB by lia.
    set (P := (10 ^ Z.of_nat (List.length a))%Z) in *. clearbody P. cbn [text_ltb]. rewrite orb_true_iff, andb_true_iff, Nat.ltb_lt, Nat.eqb_eq. destruct (Nat.lt_trichotomy (nat_of_ascii c) (nat_of_ascii d)) as [LT|[EQ|GT]].
    + assert (digit_value c + 1 <= digit_value d)%Z by lia. split; split; intros; [nia|now left|exfalso; injection H0 as -> ->; lia|exfalso; nia].
    + assert (ED : c = d) by now apply nat_of_ascii_inj. subst d. rewrite I1. split; split; intros H; [lia|right; lia|injection H as ->; reflexivity|]. f_equal. apply I2. lia.
    + assert (digit_value d + 1 <= digit_value c)%Z by lia. split; split; intros; [exfalso; lia|exfalso; nia|exfalso; injection H0 as -> ->; lia|exfalso; nia].
Qed.
Print Assumptions C119_string_order.
(** ** versions: the third and fourth digit after the last bar *)
Lemma version_rest x : released x -> 4 <= List.length (p_rel x) -> exists a b r, p_rel x = a ++ b ++ r /\ number_of 2 a /\ number_of 2 b.
Proof.
  intros ((_ & _ & _ & _ & _ & (n & L & F) & _) & _) H. exists (firstn 2 (p_rel x)), (firstn 2 (skipn 2 (p_rel x))), (skipn 2 (skipn 2 (p_rel x))).
  rewrite !firstn_skipn. split; [reflexivity|]. rewrite <- (firstn_skipn 2 (p_rel x)) in F. apply Forall_app in F as (F1 & F2). rewrite <- (firstn_skipn 2 (skipn 2 (p_rel x))) in F2. apply Forall_app in F2 as (F2 & _).
  unfold number_of. rewrite !firstn_length, !skipn_length. repeat split; try assumption; lia.
Qed.
Lemma int_of_digits s : s <> [] -> Forall (fun c => is_digit c = true) s -> py_int s = Ok (digits_value s).
Proof.
  intros NE F. unfold py_int. assert (T : take_digits s = (s, [])). { clear NE. induction F as [|c s H F IH]; [reflexivity|]. cbn. now rewrite H, IH. }
  destruct s as [|c s]; [congruence|]. inversion F as [|? ? H F']; subst. cbn [take_sign]. assert (NS : is_sign c = false). { clear - H. destruct c as [[] [] [] [] [] [] [] []]; first [reflexivity|discriminate H]. }
  rewrite NS, T. reflexivity.
Qed.
Definition version_tail : rx := seqs [Group (digits 2); Group (digits 2); Group (Few any); Maybe (Group (ors (map lit (firstn 2 suffixes)))); Eos].
Theorem C119_version : forall f x a v r, released x -> base_name f = written x -> p_rel x = a ++ v ++ r -> number_of 2 a -> number_of 2 v -> parse_version f = Ok (digits_value v).
Proof.
  intros f x a v r R E ER NA NV. unfold parse_version. rewrite E. pose proof R as ((D1 & D2 & D3 & D4 & C & (n & RN) & SX & N1 & N2 & N3 & N4) & W1 & W2 & W3 & ND & NS).
  assert (SXL : one_line (p_suffix x)) by (destruct SX as [->|SX]; [constructor|now apply suffix_facts]).
  assert (RL : one_line r). { destruct RN as (_ & F). rewrite ER in F. apply Forall_app in F as (_ & F). apply Forall_app in F as (_ & F). eapply Forall_impl; [|exact F]. intros c H ->. discriminate. }
  (* the suffix of the version pattern: .txt is not one of them *)
  set (S2 := fun s : text => exists w, In w (firstn 2 suffixes) /\ s = chars w).
  assert (SPL : exists q s, r ++ p_more x ++ p_suffix x = q ++ s /\ one_line q /\ one_line s /\ (s = [] \/ S2 s) /\ forall c b, q = c ++ b -> b <> [] -> forall w, In w (firstn 2 suffixes) -> b ++ s <> chars w).
  { assert (ST : forall q, (forall c b, q = c ++ b -> ~ S2 b) -> forall c b, q = c ++ b -> b <> [] -> forall w, In w (firstn 2 suffixes) -> b ++ [] <> chars w). { intros q H c b Eq NB w I. rewrite app_nil_r. intros ->. apply (H c (chars w) Eq). exists w. auto. }
    assert (S2S : forall s, S2 s -> a_suffix s). { intros s (w & I & ->). exists w. split; [cbn in *; tauto|reflexivity]. }
    assert (AL : one_line (r ++ p_more x ++ p_suffix x)) by (apply Forall_app; split; [exact RL|apply Forall_app; split; assumption]).
    (* a text ends like one of them, or not *)
    assert (DEC : (exists c b, r ++ p_more x ++ p_suffix x = c ++ b /\ S2 b) \/ forall c b, r ++ p_more x ++ p_suffix x = c ++ b -> ~ S2 b).
    { set (T := r ++ p_more x ++ p_suffix x). clearbody T. clear. assert (G : forall w, (exists c, T = c ++ chars w) \/ forall c, T <> c ++ chars w).
      { intros w. destruct (list_eq_dec ascii_dec (skipn (List.length T - List.length (chars w)) T) (chars w)) as [E|NE].
        - left. exists (firstn (List.length T - List.length (chars w)) T). rewrite <- E at 2. now rewrite firstn_skipn.
        - right. intros c ->. apply NE. rewrite app_length. replace (List.length c + List.length (chars w) - List.length (chars w)) with (List.length c) by lia. rewrite skipn_app, skipn_all, Nat.sub_diag. reflexivity. }
      destruct (G ".gz"%string) as [(c & E)|A]; [left; exists c, (chars ".gz"); split; [exact E|]; exists ".gz"%string; cbn; auto|].
      destruct (G ".gfc"%string) as [(c & E)|B]; [left; exists c, (chars ".gfc"); split; [exact E|]; exists ".gfc"%string; cbn; auto|].
      right. intros c b E (w & I & ->). cbn in I. destruct I as [<-|[<-|[]]]; [now apply (A c)|now apply (B c)]. }
    destruct DEC as [(c & b & EB & SB)|NO].
    - exists c, b. split; [exact EB|]. rewrite EB in AL. apply Forall_app in AL as (A1 & A2). repeat split; [exact A1|exact A2|now right|]. intros d e Ed NB w I EW. apply NB. apply (suffix_apart b (chars w) e); [now apply S2S|apply S2S; exists w; auto|exact EW].
    - exists (r ++ p_more x ++ p_suffix x), []. rewrite app_nil_r. repeat split; [exact AL|constructor|now left|]. apply ST, NO. }
  destruct SPL as (q & s & EQ & NQ & NSX & SS & NQS).
  rewrite (last_first version_pattern _ ([p_set x; p_sy x; p_sd x; p_ey x; p_ed x; p_aux x; p_center x; p_sol x] ++ [a; v; q; s]) []).
  - cbn [bind app]. destruct NV as (LV & FV). rewrite int_of_digits; [reflexivity| |exact FV]. intros ->. discriminate.
  - change version_pattern with (prefix_pattern (firstn 7 centers) version_tail). unfold written. rewrite ER.
    replace ((a ++ v ++ r) ++ p_more x ++ p_suffix x) with (a ++ v ++ (q ++ s)) by (rewrite <- EQ, !app_assoc; reflexivity).
    apply prefix_run; [intros w; cbn; tauto|exact R|]. intros k y K. unfold version_tail. cbn [seqs]. rewrite sq_run, group_run, (digits_ok 2) by exact NA. rewrite sq_run, group_run, (digits_ok 2) by exact NV.
    apply (end_run (firstn 2 suffixes)); [discriminate|intros w I; cbn in I; repeat destruct I as [<-|I]; try destruct I; discriminate|exact NQ|exact NSX|exact SS|exact NQS|intros t; apply K].
  - intros c b H. symmetry in H. apply app_eq_nil in H as (-> & ->). reflexivity.
Qed.
Print Assumptions C119_version.
(** a release number of fewer than four digits has no version *)
Definition bars (s : text) : nat := count_occ ascii_dec s "_"%char.
Lemma bars_app a b : bars (a ++ b) = bars a + bars b.
Proof. apply count_occ_app. Qed.
Lemma bars_0 a : without "_"%char a <-> bars a = 0.
Proof. unfold without, bars. apply count_occ_not_In. Qed.
Lemma last_bar a b a' b' : a ++ chars "_" ++ b = a' ++ chars "_" ++ b' -> bars b = 0 -> bars b' = 0 -> b = b'.
Proof.
  revert a'. induction a as [|c a IH]; intros [|d a'] E B B'; cbn [app] in E.
  - injection E as E. exact E.
  - injection E as <- E. exfalso. change ("_"%char :: b') with (chars "_" ++ b') in E. rewrite E, !bars_app in B. cbn in B. lia.
  - injection E as -> E. exfalso. change ("_"%char :: b) with (chars "_" ++ b) in E. rewrite <- E, !bars_app in B'. cbn in B'. lia.
  - injection E as -> E. now apply (IH a').
Qed.
Lemma digits_bars n a : number_of n a -> bars a = 0.
Proof. intros (_ & F). apply bars_0. intros I. rewrite Forall_forall in F. apply F in I. discriminate. Qed.
Lemma center_bars c : a_center c -> bars c = 0.
Proof. intros (w & I & ->). cbn in I. repeat destruct I as [<-|I]; try destruct I; reflexivity. Qed.
Lemma suffix_bars c : c = [] \/ a_suffix c -> bars c = 0.
Proof. intros [->|(w & I & ->)]; [reflexivity|]. cbn in I. repeat destruct I as [<-|I]; try destruct I; reflexivity. Qed.
Lemma version_lang g m b : lang version_pattern g m b -> exists front a rest, m = front ++ chars "_" ++ a ++ rest /\ 4 <= bars front /\ number_of 4 a.
Proof.
  change version_pattern with (prefix_pattern (firstn 7 centers) version_tail). unfold prefix_pattern. cbn [seqs]. intros L.
  do 14 (apply lang_sq in L as (?g & ?g & ?a & ?a & -> & -> & ? & L)). unfold version_tail in L. cbn [seqs] in L. do 2 (apply lang_sq in L as (?g & ?g & ?a & ?a & -> & -> & ? & L)).
  repeat match goal with
  | H : lang (Group _) _ _ _ |- _ => apply lang_group in H as (? & -> & H)
  | H : lang (lit _) _ _ _ |- _ => apply lang_lit in H as (-> & ->)
  | H : lang (digits _) _ _ _ |- _ => cbn [lang digits] in H; destruct H as (-> & ?L & ?F)
  end.
  match goal with |- context[?u ++ chars "-2_" ++ ?v ++ ?w ++ chars "-" ++ ?y ++ ?z ++ chars "_" ++ ?aa ++ chars "_" ++ ?bb ++ chars "_" ++ ?cc ++ chars "_" ++ ?d1 ++ ?d2 ++ ?rest] =>
    exists (u ++ chars "-2_" ++ v ++ w ++ chars "-" ++ y ++ z ++ chars "_" ++ aa ++ chars "_" ++ bb ++ chars "_" ++ cc), (d1 ++ d2), rest end.
  repeat split.
  - rewrite <- ?app_assoc. reflexivity.
  - rewrite !bars_app. change (bars (chars "-2_")) with 1. change (bars (chars "_")) with 1. lia.
  - rewrite app_length. lia.
  - now apply Forall_app.
Qed.
Theorem C119_no_version : forall f x, released x -> base_name f = written x -> without "_"%char (p_set x) -> without "_"%char (p_more x) -> List.length (p_rel x) < 4 -> parse_version f = Err IndexError.
Proof.
  intros f x R E W0 W9 SH. unfold parse_version. rewrite E. destruct (last_match version_pattern (written x)) as [g|e] eqn:P; [|apply last_error in P; now subst e]. exfalso.
  apply last_sound in P as (before & m & b & EW & L). pose proof L as LB. apply version_lang in L as (front & d & rest & -> & B4 & ND).
  pose proof R as ((D1 & D2 & D3 & D4 & C & (n & RN) & SX & _) & W1 & W2 & W3 & NX & _). apply bars_0 in W0. apply bars_0 in W9. apply bars_0 in W2. apply bars_0 in W3.
  assert (TB : bars (written x) = 5). { unfold written. rewrite !bars_app, W0, W9, W2, W3, (digits_bars _ _ D1), (digits_bars _ _ D2), (digits_bars _ _ D3), (digits_bars _ _ D4), (center_bars _ C), (suffix_bars _ SX), (digits_bars _ _ RN). reflexivity. }
  rewrite EW, !bars_app in TB. change (bars (chars "_")) with 1 in TB.
  assert (ER : p_rel x ++ p_more x ++ p_suffix x = d ++ rest ++ b).
  { apply (last_bar (p_set x ++ chars "-2_" ++ p_sy x ++ p_sd x ++ chars "-" ++ p_ey x ++ p_ed x ++ chars "_" ++ p_aux x ++ chars "_" ++ p_center x ++ chars "_" ++ p_sol x) _ (before ++ front)).
    - transitivity (written x); [unfold written; rewrite <- !app_assoc; reflexivity|]. rewrite EW, <- !app_assoc. reflexivity.
    - rewrite !bars_app, W9, (suffix_bars _ SX), (digits_bars _ _ RN). reflexivity.
    - rewrite !bars_app. lia. }
  destruct ND as (LD & FD). assert (K : forall r d t : text, r ++ t = d ++ rest ++ b -> List.length r < List.length d -> Forall (fun c => is_digit c = true) d -> match t with c :: _ => is_digit c = true | [] => False end).
  { clear. induction r as [|c r IH]; intros [|e d] t H LL F; cbn [List.length] in LL; try lia.
    - cbn in H. subst t. inversion F; subst. assumption.
    - injection H as _ H. apply (IH d); [exact H|lia|inversion F; assumption]. }
  specialize (K (p_rel x) d (p_more x ++ p_suffix x) ER ltac:(lia) FD). destruct (p_more x ++ p_suffix x) as [|c t]; [exact K|]. congruence.
Qed.
Print Assumptions C119_no_version.

(** ** the file kept for each date *)
Definition num_date (d : tdate) : period := ((digits_value (fst (fst d)), digits_value (snd (fst d))), (digits_value (fst (snd d)), digits_value (snd (snd d)))).
Definition good_date (d : tdate) : Prop := number_of 4 (fst (fst d)) /\ number_of 3 (snd (fst d)) /\ number_of 4 (fst (snd d)) /\ number_of 3 (snd (snd d)).
Lemma bool_iff (a b : bool) : (a = true <-> b = true) -> a = b.
Proof. destruct a, b; intuition congruence. Qed.
Lemma date_order a b : good_date a -> good_date b -> tdate_ltb a b = period_ltb (num_date a) (num_date b) /\ tdate_eqb a b = period_eqb (num_date a) (num_date b).
Proof.
  intros (A1 & A2 & A3 & A4) (B1 & B2 & B3 & B4).
  assert (K : forall n u v, number_of n u -> number_of n v -> text_ltb u v = (digits_value u <? digits_value v)%Z /\ str_eqb u v = (digits_value u =? digits_value v)%Z).
  { intros n u v U V. destruct (C119_string_order n u v U V) as (I1 & I2). split; apply bool_iff; [rewrite I1, Z.ltb_lt; reflexivity|]. rewrite str_eqb_iff, I2, Z.eqb_eq. reflexivity. }
  destruct (K _ _ _ A1 B1) as (X1 & Y1). destruct (K _ _ _ A2 B2) as (X2 & Y2). destruct (K _ _ _ A3 B3) as (X3 & Y3). destruct (K _ _ _ A4 B4) as (X4 & Y4).
  unfold tdate_ltb, tdate_eqb, tpair_ltb, tpair_eqb, period_ltb, period_eqb, pair_ltb, pair_eqb, num_date. cbn [fst snd]. now rewrite X1, X2, X3, X4, Y1, Y2, Y3, Y4.
Qed.
Lemma insert_good d l : good_date d -> Forall good_date l -> map num_date (insert_date d l) = insert_period (num_date d) (map num_date l) /\ Forall good_date (insert_date d l).
Proof.
  intros D F. induction F as [|e l E F IH]; cbn [insert_date insert_period map]; [split; [reflexivity|repeat constructor; apply D]|]. destruct (date_order d e D E) as (O1 & O2). rewrite O1, O2.
  destruct (period_ltb (num_date d) (num_date e)); [split; [reflexivity|auto]|]. destruct (period_eqb (num_date d) (num_date e)); [split; [reflexivity|auto]|]. destruct IH as (I1 & I2). cbn [map]. rewrite I1. split; [reflexivity|auto].
Qed.
Lemma sorted_good l : Forall good_date l -> map num_date (sorted_dates l) = sorted_set (map num_date l) /\ Forall good_date (sorted_dates l).
Proof.
  induction 1 as [|d l D F (I1 & I2)]; [split; [reflexivity|constructor]|]. cbn [sorted_dates fold_right map sorted_set]. destruct (insert_good d (sorted_dates l) D I2) as (J1 & J2). split; [|exact J2]. etransitivity; [exact J1|]. now rewrite I1.
Qed.
Definition date_num (f : text) : option period := match parse_grace_file f with Ok d => Some (num_date d) | Err _ => None end.
Definition version_num (f : text) : option Z := match parse_version f with Ok v => Some v | Err _ => None end.
Lemma pop_version f x : released x -> base_name f = written x -> 4 <= List.length (p_rel x) -> exists v, parse_version f = Ok v.
Proof. intros R E L. destruct (version_rest x R L) as (a & b & r & ER & NA & NB). exists (digits_value b). now apply (C119_version f x a b r). Qed.
(** every name is one of a monthly solution with four digits after the last bar *)
Definition monthly (f : text) : Prop := exists x, released x /\ base_name f = written x /\ 4 <= List.length (p_rel x).
(** the numbers of a name *)
Definition starts_ends (f : text) (p : period) : Prop := exists x, released x /\ base_name f = written x /\ p = ((digits_value (p_sy x), digits_value (p_sd x)), (digits_value (p_ey x), digits_value (p_ed x))).
Definition has_version (f : text) (v : Z) : Prop := exists x a b r, released x /\ base_name f = written x /\ p_rel x = a ++ b ++ r /\ number_of 2 a /\ number_of 2 b /\ v = digits_value b.
Lemma starts_num f p : starts_ends f p -> date_num f = Some p.
Proof. intros (x & R & E & ->). unfold date_num. rewrite (C119_period f x R E). reflexivity. Qed.
Lemma has_num f v : has_version f v -> version_num f = Some v.
Proof. intros (x & a & b & r & R & E & ER & NA & NB & ->). unfold version_num. now rewrite (C119_version f x a b r R E ER NA NB). Qed.
Lemma monthly_facts f : monthly f -> exists p v d, starts_ends f p /\ has_version f v /\ parse_grace_file f = Ok d /\ good_date d /\ num_date d = p /\ parse_version f = Ok v.
Proof.
  intros (x & R & E & L). destruct (version_rest x R L) as (a & b & r & ER & NA & NB). eexists _, _, _. split; [exists x; eauto|]. split; [exists x, a, b, r; eauto 10|]. rewrite (C119_period f x R E). split; [reflexivity|]. pose proof R as ((A & B & C & D & _) & _).
  split; [repeat split; cbn; try apply A; try apply B; try apply C; try apply D|]. split; [reflexivity|]. now apply (C119_version f x a b r).
Qed.
Lemma starts_unique f p q : starts_ends f p -> starts_ends f q -> p = q.
Proof. intros A B. apply starts_num in A. apply starts_num in B. congruence. Qed.
Lemma has_unique f p q : has_version f p -> has_version f q -> p = q.
Proof. intros A B. apply has_num in A. apply has_num in B. congruence. Qed.
Lemma mapM_same {A B C} (f : A -> res B) (g : C -> res B) (h : A -> C) l : (forall a, In a l -> f a = g (h a)) -> mapM f l = mapM g (map h l).
Proof. induction l as [|a l IH]; intros H; cbn [mapM map]; [reflexivity|]. rewrite (H a (or_introl eq_refl)), IH by (intros; apply H; now right). reflexivity. Qed.
Lemma mapM_in {A B} (f g : A -> res B) l : (forall a, In a l -> f a = g a) -> mapM f l = mapM g l.
Proof. intros H. rewrite (mapM_same f g (fun a => a) l H). now rewrite map_id. Qed.
Lemma reduce_as_numbers names : Forall monthly names -> reduce_names names = reduce_by_date date_num version_num names.
Proof.
  intros F. unfold reduce_names, reduce_by_date.
  assert (M : exists ds, mapM parse_grace_file names = Ok ds /\ Forall good_date ds /\ mapM (fun f => pop (date_num f)) names = Ok (map num_date ds)).
  { induction F as [|f names H F IH]; [exists []; repeat split; constructor|]. destruct IH as (ds & M1 & G & M2). destruct (monthly_facts f H) as (p & v & d & SE & _ & P & GD & ND & _). exists (d :: ds). cbn [mapM map]. rewrite P, M1, M2. unfold date_num at 1. rewrite P. cbn. repeat split. now constructor. }
  destruct M as (ds & M1 & G & M2). rewrite M1, M2. cbn [bind]. destruct (sorted_good ds G) as (S1 & S2). rewrite <- S1. apply mapM_same. intros d I. rewrite Forall_forall in S2. specialize (S2 d I). clear I S1.
  assert (EV : forall f, In f names -> parse_version f = pop (version_num f)). { intros f I. rewrite Forall_forall in F. destruct (monthly_facts f (F f I)) as (p & v & d0 & _ & _ & _ & _ & _ & P). unfold version_num. now rewrite P. }
  unfold pick_date, pick, with_date.
  assert (EF : forall (ds : list tdate) (names : list text), Forall good_date ds -> map snd (filter (fun x => tdate_eqb (fst x) d) (combine ds names)) = map snd (filter (fun x => period_eqb (fst x) (num_date d)) (combine (map num_date ds) names))).
  { clear - S2. intros ds names G. revert names. induction G as [|e ds E G IH]; intros [|f names]; cbn [combine map filter fst]; try reflexivity. destruct (date_order e d E S2) as (_ & ->). destruct (period_eqb (num_date e) (num_date d)); cbn [map snd]; now rewrite IH. }
  change (@combine (text * text * (text * text)) text ds names) with (@combine tdate text ds names).
  rewrite (EF ds names G). clear EF.
  assert (IN : forall f, In f (map snd (filter (fun x => period_eqb (fst x) (num_date d)) (combine (map num_date ds) names))) -> In f names). { intros f I. apply in_map_iff in I as ((q & f') & <- & I). apply filter_In in I as (I & _). now apply in_combine_r in I. }
  destruct (map snd (filter (fun x => period_eqb (fst x) (num_date d)) (combine (map num_date ds) names))) as [|f [|f2 t]]; [reflexivity|reflexivity|]. rewrite (EV f (IN f (or_introl eq_refl))).
  rewrite (mapM_in _ (fun f => do v <- pop (version_num f); Ok (f, v)) (f2 :: t)); [reflexivity|]. intros g I. rewrite (EV g); [reflexivity|]. apply IN. now right.
Qed.
(** one file is kept for each period, in the order of the periods, and it has the highest version among the files of this period *)
Theorem C119_reduce : forall names, Forall monthly names -> exists kept ps, reduce_names names = Ok kept /\ StronglySorted period_lt ps /\
  (forall p, In p ps <-> exists f, In f names /\ starts_ends f p) /\
  Forall2 (fun p g => In g names /\ starts_ends g p /\ forall f v w, In f names -> starts_ends f p -> has_version f v -> has_version g w -> (v <= w)%Z) ps kept.
Proof.
  intros names F. rewrite (reduce_as_numbers names F). pose proof (proj1 (Forall_forall _ _) F) as FF.
  assert (BACK : forall f p, In f names -> date_num f = Some p -> starts_ends f p). { intros f p I H. destruct (monthly_facts f (FF f I)) as (q & _ & _ & SE & _). rewrite (starts_num f q SE) in H. now injection H as <-. }
  destruct (PropTime.C10_reduce_total text date_num version_num names) as (kept & K).
  { intros f I. destruct (monthly_facts f (FF f I)) as (p & v & _ & SE & HV & _). rewrite (starts_num f p SE), (has_num f v HV). split; discriminate. }
  destruct (PropTime.C10_reduce_by_date text date_num version_num names kept K) as (ps & SO & IN & F2). exists kept, ps. split; [exact K|]. split; [exact SO|]. split.
  - intros p. rewrite IN. split; intros (f & I & H); exists f; (split; [exact I|]); [now apply BACK|now apply starts_num].
  - clear - F2 BACK. induction F2 as [|p g ps kept (I & P & V) F2 IH]; constructor; [|exact IH]. split; [exact I|]. split; [now apply BACK|]. intros f v w IF SF HV HW. apply starts_num in SF. destruct (V f IF SF) as [->|(vf & vg & V1 & V2 & LE)].
    + rewrite (has_unique _ _ _ HV HW). lia.
    + apply has_num in HV. apply has_num in HW. rewrite HV in V1. rewrite HW in V2. injection V1 as <-. injection V2 as <-. exact LE.
Qed.
Print Assumptions C119_reduce.
(** the directory plays no role *)
Theorem C119_directory : forall d n, without slash n -> base_name (d ++ slash :: n) = n /\ base_name n = n.
Proof.
  intros d n W. assert (H : existsb (Ascii.eqb slash) n = false). { apply not_true_is_false. intros X. apply existsb_exists in X as (c & I & E). apply Ascii.eqb_eq in E. subst c. contradiction. }
  split; [unfold base_name; now rewrite PropNcIndex.split_name_ok|].
  unfold base_name, split_name. assert (G : forall a, existsb (Ascii.eqb slash) a = false -> until_slash a = (a, [])). { clear. induction a as [|c a IH]; intros H; [reflexivity|]. cbn [until_slash existsb] in *. apply orb_false_iff in H as (H1 & H2). rewrite Ascii.eqb_sym in H1. now rewrite H1, IH. }
  rewrite G; [apply rev_involutive|]. apply not_true_is_false. intros X. apply existsb_exists in X as (c & I & E). rewrite <- in_rev in I. apply not_true_iff_false in H. apply H. apply existsb_exists. eauto.
Qed.
(** REFUTED: files of release 5a of the GFZ (the release number 005 has three digits) cannot be compared: two files of the same period, and also the same file listed twice *)
Theorem C119_short_release_refuted : forall f g x y, released x -> base_name f = written x -> released y -> base_name g = written y -> without "_"%char (p_set x) -> without "_"%char (p_more x) -> List.length (p_rel x) < 4 ->
  p_sy x = p_sy y -> p_sd x = p_sd y -> p_ey x = p_ey y -> p_ed x = p_ed y -> reduce_names [f; g] = Err IndexError.
Proof.
  intros f g x y RX EX RY EY W0 W9 L H1 H2 H3 H4. unfold reduce_names. cbn [mapM]. rewrite (C119_period f x RX EX), (C119_period g y RY EY), <- H1, <- H2, <- H3, <- H4. cbn [bind combine sorted_dates fold_right insert_date].
  set (d := ((p_sy x, p_sd x), (p_ey x, p_ed x))). assert (GD : good_date d) by (destruct RX as ((A & B & C & D & _) & _); repeat split; cbn; try apply A; try apply B; try apply C; try apply D).
  destruct (date_order d d GD GD) as (O1 & O2). assert (E1 : period_ltb (num_date d) (num_date d) = false) by (apply not_true_is_false; intros X; apply period_ltb_spec in X; now apply period_lt_irrefl in X). assert (E2 : period_eqb (num_date d) (num_date d) = true) by now apply period_eqb_spec.
  rewrite O1, O2, E1, E2. cbn [mapM]. unfold pick_date. cbn [filter fst map snd]. rewrite !O2, !E2. cbn [map snd]. rewrite (C119_no_version f x RX EX W0 W9 L). reflexivity.
Qed.
(** REFUTED: only the version counts, not the release: an older release with a higher version replaces a newer release *)
Theorem C119_release_refuted : exists f g, monthly f /\ monthly g /\ f = chars "GSM-2_2018152-2018181_GRFO_UTCSR_BA01_0603.gz" /\ g = chars "GSM-2_2018152-2018181_GRFO_UTCSR_BA01_0700.gz" /\ reduce_names [f; g] = Ok [f].
Proof.
  exists (chars "GSM-2_2018152-2018181_GRFO_UTCSR_BA01_0603.gz"), (chars "GSM-2_2018152-2018181_GRFO_UTCSR_BA01_0700.gz"). assert (M : forall a b c d : ascii, is_digit a = true -> is_digit b = true -> is_digit c = true -> is_digit d = true -> without slash [a; b; c; d] -> monthly (chars "GSM-2_2018152-2018181_GRFO_UTCSR_BA01_" ++ [a; b; c; d] ++ chars ".gz")).
  { intros a b c d A B C D NS. exists (mkparts (chars "GSM") (chars "2018") (chars "152") (chars "2018") (chars "181") (chars "GRFO") (chars "UTCSR") (chars "BA01") [a; b; c; d] [] (chars ".gz")). split; [|split; [|cbn; lia]].
    - unfold released, shape, number_of, one_line, without. cbn [p_set p_sy p_sd p_ey p_ed p_aux p_center p_sol p_rel p_more p_suffix]. assert (DG : forall s, forallb is_digit s = true -> Forall (fun c => is_digit c = true) s) by (intros s H; apply Forall_forall; now apply forallb_forall).
      repeat split; try (apply DG; reflexivity); try reflexivity; try (cbn; intuition discriminate); try (repeat constructor; discriminate).
      + exists "UTCSR"%string. cbn. auto.
      + exists 3. split; [reflexivity|]. repeat constructor; assumption.
      + right. exists ".gz"%string. cbn. auto.
    - assert (W : without slash (chars "GSM-2_2018152-2018181_GRFO_UTCSR_BA01_" ++ [a; b; c; d] ++ chars ".gz")).
      { intros I. apply in_app_or in I as [I|I]; [cbn in I; intuition discriminate|]. apply in_app_or in I as [I|I]; [contradiction|cbn in I; intuition discriminate]. }
      rewrite (proj2 (C119_directory [] _ W)). reflexivity. }
  split; [|split; [|split; [reflexivity|split; [reflexivity|vm_compute; reflexivity]]]].
  - apply (M "0" "6" "0" "3")%char; try reflexivity. clear M. intros I. cbn in I. intuition discriminate.
  - apply (M "0" "7" "0" "0")%char; try reflexivity. clear M. intros I. cbn in I. intuition discriminate.
Qed.
Print Assumptions C119_release_refuted.
