(** C113: the table of months (GRACE_months.txt) and the date files. *)
From Coq Require Import QArith String Ascii Sorted ZifyBool ZifyNat Permutation.
From Verif Require Import Base TimeModel TimeSpec TimeProofs TimeProofs2 DecimalProofs AdjustProofs GraceModel PropGraceDate PropSlr IndexModel.
From Coq Require Import Reals.
Close Scope R_scope. Close Scope string_scope. Close Scope Q_scope.
Open Scope Z_scope.
Ltac Zify.zify_post_hook ::= Z.to_euclidean_division_equations.

(** ** What is meant *)
(** the order of names: the first character that differs decides, and a name comes before its continuations *)
Definition before (a b : string) : Prop := exists p : string,
  (exists c t, a = p /\ b = String.append p (String c t)) \/
  (exists c d s t, a = String.append p (String c s) /\ b = String.append p (String d t) /\ (Ascii.nat_of_ascii c < Ascii.nat_of_ascii d)%nat).
(** the date file of the GSM product of one of the four centres and of a release asked for, under the name of its column *)
Definition found (k : disk) (drel : list string) (x : string) (rows : list drow) : Prop :=
  exists pr rl, In pr ["CSR"; "GFZ"; "GSFC"; "JPL"]%string /\ In rl drel /\ x = (pr ++ "_" ++ rl)%string /\ k_dates k (pr, rl, "GSM"%string) = Some rows.
(** the rows of a date file cannot be shown in the line of month [m]: it is the only row of the file, or the month is there twice *)
Definition clash (rows : list drow) (m : Z) : Prop :=
  (exists r, rows = [r] /\ w_mon r = m) \/
  (exists i j r s, (i < j)%nat /\ nth_error rows i = Some r /\ nth_error rows j = Some s /\ w_mon r = m /\ w_mon s = m).
(** what an entry says about the date file *)
Definition says (rows : list drow) (m : Z) (e : entry) : Prop :=
  match e with
  | Missing => forall r, In r rows -> w_mon r <> m
  | Shown s => exists r, In r rows /\ w_mon r = m /\ w_span r = s
  end.
(** a line of the table: the calendar month of its number, and for each column what its date file says *)
Definition right_line (k : disk) (drel names : list string) (l : tline) : Prop :=
  (exists mo, (mo < 12)%nat /\ n_mon l = 12 * (n_year l - 2002) + Z.of_nat mo + 1 /\
     n_name l = nth mo ["Jan"; "Feb"; "Mar"; "Apr"; "May"; "Jun"; "Jul"; "Aug"; "Sep"; "Oct"; "Nov"; "Dec"]%string ""%string) /\
  List.length (n_cells l) = List.length names /\
  forall j x e rows, nth_error names j = Some x -> nth_error (n_cells l) j = Some e -> found k drel x rows -> says rows (n_mon l) e /\ ~ clash rows (n_mon l).

(** ** Strings *)
Lemma ascii_lt c d : Ascii.compare c d = Lt <-> (nat_of_ascii c < nat_of_ascii d)%nat.
Proof. unfold Ascii.compare, nat_of_ascii. rewrite N.compare_lt_iff. lia. Qed.
Lemma before_cons c a b : before a b -> before (String c a) (String c b).
Proof.
  intros (p & [(d & t & E1 & E2)|(d & e & s & t & E1 & E2 & L)]); exists (String c p); [left|right].
  - exists d, t. subst. split; reflexivity.
  - exists d, e, s, t. subst. repeat split; auto.
Qed.
Lemma compare_before a : forall b, String.compare a b = Lt <-> before a b.
Proof.
  induction a as [|c a IH]; intros [|d b]; cbn [String.compare].
  - split; [discriminate|]. intros (p & [(e & t & E1 & E2)|(e & f & s & t & E1 & E2 & L)]); destruct p; discriminate.
  - split; [|reflexivity]. intros _. exists EmptyString. left. exists d, b. split; reflexivity.
  - split; [discriminate|]. intros (p & [(e & t & E1 & E2)|(e & f & s & t & E1 & E2 & L)]); destruct p; discriminate.
  - split.
    + destruct (Ascii.compare c d) eqn:E; [| |discriminate].
      * apply Ascii.compare_eq_iff in E. subst d. intros H. apply before_cons, IH, H.
      * intros _. apply ascii_lt in E. exists EmptyString. right. exists c, d, a, b. repeat split; auto.
    + intros (p & [(e & t & E1 & E2)|(e & f & s & t & E1 & E2 & L)]); destruct p as [|g p]; cbn [String.append] in *; try discriminate.
      * injection E1 as -> ->. injection E2 as -> ->.
        assert (R : Ascii.compare g g = Eq) by (unfold Ascii.compare; apply N.compare_refl). rewrite R. apply IH. exists p. left. exists e, t. split; reflexivity.
      * injection E1 as -> ->. injection E2 as -> ->. apply ascii_lt in L. rewrite L. reflexivity.
      * injection E1 as -> ->. injection E2 as -> ->. assert (R : Ascii.compare g g = Eq) by (unfold Ascii.compare; apply N.compare_refl). rewrite R.
        apply IH. exists p. right. exists e, f, s, t. repeat split; auto.
Qed.
Lemma compare_trans a : forall b c, String.compare a b = Lt -> String.compare b c = Lt -> String.compare a c = Lt.
Proof.
  induction a as [|x a IH]; intros [|y b] [|z c]; cbn [String.compare]; try discriminate; auto.
  destruct (Ascii.compare x y) eqn:E1; [| |discriminate]; destruct (Ascii.compare y z) eqn:E2; try discriminate.
  - apply Ascii.compare_eq_iff in E1. subst. rewrite E2. apply IH.
  - apply Ascii.compare_eq_iff in E1. subst. rewrite E2. reflexivity.
  - apply Ascii.compare_eq_iff in E2. subst. rewrite E1. reflexivity.
  - apply ascii_lt in E1. apply ascii_lt in E2. assert (E3 : Ascii.compare x z = Lt) by (apply ascii_lt; lia). rewrite E3. reflexivity.
Qed.
Lemma before_trans a b c : before a b -> before b c -> before a c.
Proof. rewrite <- !compare_before. apply compare_trans. Qed.
Lemma insert_in x l y : In y (insert x l) <-> y = x \/ In y l.
Proof. induction l as [|z l IH]; cbn [insert]; [cbn; intuition|]. destruct (String.leb x z); cbn [In]; [intuition|]. rewrite IH. intuition. Qed.
Lemma insert_sorted x l : StronglySorted before l -> ~ In x l -> StronglySorted before (insert x l).
Proof.
  induction 1 as [|y l H IH F]; intros N; cbn [insert]; [repeat constructor|].
  rewrite Forall_forall in F. unfold String.leb. destruct (String.compare x y) eqn:E.
  - apply String.compare_eq_iff in E. subst. destruct N. left; auto.
  - apply compare_before in E. constructor; [constructor; auto; apply Forall_forall; auto|]. apply Forall_forall. intros z [<-|Hz]; auto. eapply before_trans; eauto.
  - constructor; [apply IH; intros G; apply N; right; auto|]. apply Forall_forall. intros z Hz. apply insert_in in Hz. destruct Hz as [->|Hz]; auto.
    apply compare_before. rewrite String.compare_antisym, E. reflexivity.
Qed.
Lemma sorted_ok l : NoDup l -> StronglySorted before (sorted_names l) /\ forall x, In x (sorted_names l) <-> In x l.
Proof.
  induction 1 as [|x l N ND [S I]]; cbn [sorted_names fold_right]; [split; [constructor|intuition]|]. fold (sorted_names l). split.
  - apply insert_sorted; auto. rewrite I. auto.
  - intros y. rewrite insert_in, I. cbn [In]. intuition.
Qed.
Lemma col_inj pr rl pr' rl' : In pr centres -> In pr' centres -> col_name pr rl = col_name pr' rl' -> pr = pr' /\ rl = rl'.
Proof. unfold centres, col_name. cbn [In]. intros [<-|[<-|[<-|[<-|[]]]]] [<-|[<-|[<-|[<-|[]]]]]; cbn [String.append]; intros E; try discriminate; injection E as ->; split; reflexivity. Qed.
Lemma found_once k drel x a b : found k drel x a -> found k drel x b -> a = b.
Proof.
  intros (pr & rl & I & _ & E & D) (pr' & rl' & I' & _ & E' & D'). subst x. destruct (col_inj pr rl pr' rl' I I' E') as [-> ->]. congruence.
Qed.
(** ** The dictionary of date files *)
Lemma set_keys d x v y : In y (map fst (dict_set d x v)) <-> y = x \/ In y (map fst d).
Proof. induction d as [|[z w] d IH]; cbn [dict_set map fst]; [cbn; intuition|]. destruct (String.eqb_spec z x); cbn [map fst In]; [subst; intuition|]. rewrite IH. intuition. Qed.
Lemma set_nodup d x v : NoDup (map fst d) -> NoDup (map fst (dict_set d x v)).
Proof.
  induction d as [|[z w] d IH]; cbn [dict_set map fst]; intros H; [repeat constructor; auto|]. inversion H; subst. destruct (String.eqb_spec z x); cbn [map fst]; [subst; auto|].
  constructor; auto. rewrite set_keys. intros [->|G]; contradiction.
Qed.
Lemma set_get d x v y : dict_get (dict_set d x v) y = if String.eqb x y then v else dict_get d y.
Proof.
  induction d as [|[z w] d IH]; cbn [dict_set dict_get]; [reflexivity|]. destruct (String.eqb_spec z x); cbn [dict_get]; [subst; destruct (String.eqb x y); reflexivity|].
  rewrite IH. destruct (String.eqb_spec z y), (String.eqb_spec x y); subst; congruence.
Qed.
(** a pair of the list whose date file is there *)
Definition has (k : disk) (ps : list (string * string)) (x : string) (rows : list drow) : Prop :=
  exists pr rl, In (pr, rl) ps /\ x = col_name pr rl /\ k_dates k (gsm pr rl) = Some rows.
Lemma has_found k drel x rows : has k (flat_map (fun rl => map (fun pr => (pr, rl)) centres) drel) x rows <-> found k drel x rows.
Proof.
  unfold has, found. split; intros (pr & rl & H).
  - destruct H as (I & E & D). apply in_flat_map in I. destruct I as (r & Ir & Ip). apply in_map_iff in Ip. destruct Ip as (q & Eq & Iq). injection Eq as -> ->. exists pr, rl. auto.
  - destruct H as (I1 & I2 & E & D). exists pr, rl. split; [|auto]. apply in_flat_map. exists rl. split; auto. apply in_map_iff. exists pr. auto.
Qed.
Lemma collect_ok k ps : (forall x rows, has k ps x rows -> rows <> []) -> (forall p, In p ps -> In (fst p) centres) -> forall d mx, NoDup (map fst d) -> exists d' mx', collect k ps d mx = Ok (d', mx') /\
  NoDup (map fst d') /\ (forall x, In x (map fst d') <-> In x (map fst d) \/ exists rows, has k ps x rows) /\
  (forall x rows, has k ps x rows -> dict_get d' x = rows) /\ (forall x, (forall rows, ~ has k ps x rows) -> dict_get d' x = dict_get d x) /\
  mx <= mx' /\ (forall x rows r, has k ps x rows -> In r rows -> w_mon r <= mx') /\ (mx' = mx \/ exists x rows r, has k ps x rows /\ In r rows /\ w_mon r = mx').
Proof.
  induction ps as [|[pr rl] ps IH]; intros NE IC d mx ND; cbn [collect].
  - exists d, mx. split; [reflexivity|]. split; [auto|]. assert (N : forall x rows, ~ has k [] x rows) by (intros x rows (? & ? & [] & _)).
    split; [intros x; split; [auto|intros [H|[rows H]]; [auto|destruct (N _ _ H)]]|]. split; [intros x rows H; destruct (N _ _ H)|]. split; [auto|].
    split; [lia|]. split; [intros x rows r H; destruct (N _ _ H)|]. left; auto.
  - assert (UP : forall x rows, has k ps x rows -> has k ((pr, rl) :: ps) x rows) by (intros x rows (a & b & I & H); exists a, b; split; [right; auto|auto]).
    assert (IC' : forall p, In p ps -> In (fst p) centres) by (intros p Hp; apply IC; right; auto).
    assert (NE' : forall x rows, has k ps x rows -> rows <> []) by (intros x rows H; eapply NE, UP, H).
    destruct (k_dates k (gsm pr rl)) as [rows0|] eqn:E.
    + assert (H0 : has k ((pr, rl) :: ps) (col_name pr rl) rows0) by (exists pr, rl; split; [left; auto|auto]).
      assert (N0 : rows0 <> []) by (eapply NE; eauto).
      assert (SP : forall x rows, has k ((pr, rl) :: ps) x rows <-> (x = col_name pr rl /\ rows = rows0) \/ has k ps x rows).
      { intros x rows. split; [|intros [[-> ->]|H]; auto]. intros (a & b & [I|I] & Ex & Ed); [injection I as <- <-; left; split; auto; congruence|]. right. exists a, b. auto. }
      set (m := zmax (map w_mon rows0)). set (mx1 := if mx <? m then m else mx).
      assert (STEP : match rows0 with [] => Err ValueError | _ :: _ => collect k ps (dict_set d (col_name pr rl) rows0) mx1 end = collect k ps (dict_set d (col_name pr rl) rows0) mx1) by (destruct rows0; [congruence|reflexivity]).
      match goal with |- exists d' mx', ?t = _ /\ _ => replace t with (collect k ps (dict_set d (col_name pr rl) rows0) mx1) by (destruct rows0; [congruence|reflexivity]) end. clear STEP.
      destruct (IH NE' IC' (dict_set d (col_name pr rl) rows0) mx1 (set_nodup _ _ _ ND)) as (d' & mx' & E' & ND' & K & G & G0 & L & U & At).
      assert (ZM : In m (map w_mon rows0) /\ forall z, In z (map w_mon rows0) -> z <= m) by (apply zmax_spec; destruct rows0; [congruence|discriminate]).
      exists d', mx'. split; [exact E'|]. split; [exact ND'|]. split; [|split; [|split; [|split; [|split]]]].
      * intros x. rewrite K, set_keys. split; [intros [[->|H]|[rows H]]; eauto|]. intros [H|[rows H]]; [auto|]. apply SP in H. destruct H as [[-> ->]|H]; eauto.
      * intros x rows H. apply SP in H. destruct H as [[-> ->]|H]; [|auto].
        destruct (In_dec (fun p q : string * string => ltac:(decide equality; apply String.string_dec)) (pr, rl) ps) as [Ip|Np].
        -- apply G. exists pr, rl. auto.
        -- rewrite G0, set_get, String.eqb_refl; auto. intros rows (a & b & I & Ex & _). apply Np.
           destruct (col_inj pr rl a b) as [<- <-]; auto; [apply (IC (pr, rl)); left; auto|apply (IC' (a, b)); auto].
      * intros x H. rewrite G0 by (intros rows H'; eapply H, UP; eauto). rewrite set_get. destruct (String.eqb_spec (col_name pr rl) x) as [<-|]; [exfalso; eapply H; eauto|reflexivity].
      * assert (mx <= mx1) by (unfold mx1; destruct (Z.ltb_spec mx m); lia). lia.
      * intros x rows r H Hr. apply SP in H. destruct H as [[-> ->]|H]; [|eauto]. assert (w_mon r <= m) by (apply ZM, in_map, Hr). assert (m <= mx1) by (unfold mx1; destruct (Z.ltb_spec mx m); lia). lia.
      * destruct At as [->|(x & rows & r & H & Hr & Er)]; [|right; exists x, rows, r; auto]. unfold mx1. destruct (Z.ltb_spec mx m); [|left; auto].
        right. destruct ZM as [ZM _]. apply in_map_iff in ZM. destruct ZM as (r & Er & Hr). exists (col_name pr rl), rows0, r. auto.
    + assert (SP : forall x rows, has k ((pr, rl) :: ps) x rows <-> has k ps x rows).
      { intros x rows. split; [|auto]. intros (a & b & [I|I] & Ex & Ed); [injection I as <- <-; congruence|]. exists a, b. auto. }
      destruct (IH NE' IC' d mx ND) as (d' & mx' & E' & ND' & K & G & G0 & L & U & At). exists d', mx'. split; [exact E'|]. split; [exact ND'|]. split; [|split; [|split; [|split; [|split]]]].
      * intros x. rewrite K. split; (intros [H|[rows H]]; [auto|right; exists rows; apply SP; auto]).
      * intros x rows H. apply G, SP, H.
      * intros x H. apply G0. intros rows H'. eapply H, SP; eauto.
      * exact L.
      * intros x rows r H. apply (U x). apply SP, H.
      * destruct At as [->|(x & rows & r & H & Hr)]; [left; auto|right; exists x, rows, r; split; auto; apply SP, H].
Qed.
Lemma collect_stop k ps x : has k ps x [] -> forall d mx, collect k ps d mx = Err ValueError.
Proof.
  induction ps as [|[pr rl] ps IH]; intros H d mx; [destruct H as (? & ? & [] & _)|]. cbn [collect].
  assert (C : k_dates k (gsm pr rl) = Some [] \/ has k ps x []). { destruct H as (a & b & [I|I] & Ex & Ed); [injection I as <- <-; auto|right; exists a, b; auto]. }
  destruct C as [->|C]; [reflexivity|]. destruct (k_dates k (gsm pr rl)) as [[|r rows]|]; auto.
Qed.
(** ** Entries and lines *)
Lemma filter_two {A} (p : A -> bool) l a b t : filter p l = a :: b :: t -> exists i j, (i < j)%nat /\ nth_error l i = Some a /\ nth_error l j = Some b.
Proof.
  induction l as [|x l IH]; cbn [filter]; [discriminate|]. destruct (p x).
  - intros E. injection E as <- E. assert (I : In b (filter p l)) by (rewrite E; left; auto). apply filter_In in I. destruct I as [I _]. apply In_nth_error in I. destruct I as [j I].
    exists O, (S j). split; [lia|]. split; [reflexivity|exact I].
  - intros E. destruct (IH E) as (i & j & L & A1 & A2). exists (S i), (S j). split; [lia|]. auto.
Qed.
Lemma two_filter {A} (p : A -> bool) l i j a b : (i < j)%nat -> nth_error l i = Some a -> nth_error l j = Some b -> p a = true -> p b = true -> exists c d t, filter p l = c :: d :: t.
Proof.
  revert i j. induction l as [|x l IH]; intros [|i] [|j] L A1 A2 P1 P2; cbn [nth_error filter] in *; try discriminate; try lia.
  - injection A1 as ->. rewrite P1. assert (I : In b (filter p l)) by (apply filter_In; split; auto; eapply nth_error_In; eauto). destruct (filter p l) as [|d t]; [destruct I|]. eauto.
  - destruct (IH i j ltac:(lia) A1 A2 P1 P2) as (c & d & t & E). rewrite E. destruct (p x); eauto.
Qed.
Lemma entry_spec rows m : (exists e, entry_of rows m = Ok e /\ says rows m e /\ ~ clash rows m) \/ ((exists x, entry_of rows m = Err x) /\ clash rows m).
Proof.
  unfold entry_of. destruct (filter (fun r => w_mon r =? m) rows) as [|a [|b t]] eqn:E.
  - left. exists Missing. split; [reflexivity|]. assert (N : forall r, In r rows -> w_mon r <> m).
    { intros r Hr Em. assert (I : In r (filter (fun r => w_mon r =? m) rows)) by (apply filter_In; split; auto; lia). rewrite E in I. destruct I. }
    split; [exact N|]. intros [(r & -> & Er)|(i & j & r & s & _ & A1 & _ & Er & _)]; [apply (N r); [left; auto|auto]|apply (N r); [eapply nth_error_In; eauto|auto]].
  - assert (I : In a (filter (fun r => w_mon r =? m) rows)) by (rewrite E; left; auto). apply filter_In in I. destruct I as [I Em].
    assert (NT : ~ exists i j r s, (i < j)%nat /\ nth_error rows i = Some r /\ nth_error rows j = Some s /\ w_mon r = m /\ w_mon s = m).
    { intros (i & j & r & s & L & A1 & A2 & M1 & M2). destruct (two_filter (fun r => w_mon r =? m) rows i j r s) as (c & d & t & F); auto; try lia. rewrite E in F. discriminate. }
    destruct rows as [|x [|y rows]]; [destruct I| |].
    + right. split; [eauto|]. left. destruct I as [->|[]]. exists a. split; [reflexivity|lia].
    + left. exists (Shown (w_span a)). split; [reflexivity|]. split; [exists a; repeat split; auto; lia|]. intros [(r & Er & _)|T]; [discriminate|contradiction].
  - right. split; [eauto|]. right. destruct (filter_two _ _ _ _ _ E) as (i & j & L & A1 & A2).
    assert (F : forall z, In z (a :: b :: t) -> w_mon z = m) by (intros z Hz; rewrite <- E in Hz; apply filter_In in Hz; lia).
    exists i, j, a, b. repeat split; auto; apply F; cbn; auto.
Qed.
Lemma month_name m : exists mo, (mo < 12)%nat /\ m = 12 * (fst (grace_to_calendar m) - 2002) + Z.of_nat mo + 1 /\
  nth (Z.to_nat (snd (grace_to_calendar m))) month_abbr ""%string = nth mo ["Jan"; "Feb"; "Mar"; "Apr"; "May"; "Jun"; "Jul"; "Aug"; "Sep"; "Oct"; "Nov"; "Dec"]%string ""%string.
Proof.
  unfold grace_to_calendar. cbn [fst snd]. exists (Z.to_nat ((m - 1) mod 12)). split; [lia|]. split; [lia|].
  replace (Z.to_nat ((m - 1) mod 12 + 1)) with (S (Z.to_nat ((m - 1) mod 12))) by lia. reflexivity.
Qed.
Lemma mapM_first {A B} (f : A -> res B) l e : mapM f l = Err e -> exists a, In a l /\ f a = Err e.
Proof.
  induction l as [|a l IH]; cbn [mapM]; [discriminate|]. destruct (f a) as [b|e'] eqn:E; cbn [bind]; [|intros H; injection H as <-; exists a; split; [left; auto|auto]].
  destruct (mapM f l) as [bs|e'] eqn:E2; cbn [bind]; [discriminate|]. intros H. injection H as <-. destruct (IH eq_refl) as (x & I & Ex). exists x. split; [right; auto|auto].
Qed.
Lemma line_spec k drel d names m : (forall x rows, found k drel x rows -> dict_get d x = rows) -> (forall x, In x names -> exists rows, found k drel x rows) ->
  (exists l, line_of d names m = Ok l /\ n_mon l = m /\ right_line k drel names l) \/
  ((exists e, line_of d names m = Err e) /\ exists x rows, found k drel x rows /\ clash rows m).
Proof.
  intros G F. unfold line_of. destruct (month_name m) as (mo & L & Em & En). destruct (grace_to_calendar m) as [y c]. cbn [fst snd] in Em, En.
  destruct (mapM (fun x => entry_of (dict_get d x) m) names) as [es|e] eqn:E; cbn [bind].
  - left. eexists. split; [reflexivity|]. split; [reflexivity|]. apply mapM_F2 in E. split; [exists mo; cbn; auto|]. cbn [n_cells n_mon]. split; [clear - E; induction E; cbn; congruence|].
    intros j x v rows Hx Hv Hf. assert (Hj : entry_of (dict_get d x) m = Ok v). { clear - E Hx Hv. revert j Hx Hv. induction E as [|a b la lb H E IH]; intros [|j] Hx Hv; cbn in *; try discriminate; [congruence|eauto]. }
    rewrite (G x rows Hf) in Hj. destruct (entry_spec rows m) as [(e & He & Hs & Hc)|((e & He) & _)]; [|congruence]. rewrite He in Hj. injection Hj as ->. auto.
  - right. split; [eauto|]. destruct (mapM_first _ _ _ E) as (x & Ix & Ex). destruct (F x Ix) as [rows Hf]. rewrite (G x rows Hf) in Ex. exists x, rows. split; auto.
    destruct (entry_spec rows m) as [(v & Hv & _)|(_ & C)]; [congruence|exact C].
Qed.
Lemma print_spec k drel d names : (forall x rows, found k drel x rows -> dict_get d x = rows) -> (forall x, In x names -> exists rows, found k drel x rows) -> forall n a, 
  exists lines out, print_lines d names (map (fun i => a + Z.of_nat i) (seq 0 n)) = (lines, out) /\ (List.length lines <= n)%nat /\
   (forall i l, nth_error lines i = Some l -> n_mon l = a + Z.of_nat i /\ right_line k drel names l) /\
   ((out = Ok tt /\ List.length lines = n) \/ ((exists e, out = Err e) /\ (List.length lines < n)%nat /\ exists x rows, found k drel x rows /\ clash rows (a + Z.of_nat (List.length lines)))).
Proof.
  intros G F n. induction n as [|n IH]; intros a.
  - exists [], (Ok tt). cbn. split; [reflexivity|]. split; [lia|]. split; [intros [|i] l E; discriminate|]. auto.
  - cbn [seq map print_lines]. rewrite Z.add_0_r. destruct (line_spec k drel d names a G F) as [(l & E & En & Hl)|((e & E) & C)]; rewrite E.
    + rewrite <- seq_shift, map_map. replace (map (fun i => a + Z.of_nat (S i)) (seq 0 n)) with (map (fun i => (a + 1) + Z.of_nat i) (seq 0 n)) by (apply map_ext; intros; lia).
      destruct (IH (a + 1)) as (lines & out & P & L & A & O). rewrite P. exists (l :: lines), out. split; [reflexivity|]. cbn [List.length]. split; [lia|]. split.
      * intros [|i] x Ex; cbn in Ex; [injection Ex as <-; split; [lia|auto]|]. destruct (A i x Ex) as [A1 A2]. split; [lia|auto].
      * destruct O as [[-> O]|(O1 & O2 & x & rows & O3 & O4)]; [left; split; auto; lia|right; split; [auto|split; [lia|]]]. exists x, rows. split; auto. replace (a + Z.of_nat (S (List.length lines))) with (a + 1 + Z.of_nat (List.length lines)) by lia. auto.
    + exists [], (Err e). split; [reflexivity|]. cbn [List.length]. split; [lia|]. split; [intros [|i] l Ex; discriminate|]. right. split; [eauto|]. split; [lia|]. destruct C as (x & rows & C). exists x, rows. rewrite Z.add_0_r. auto.
Qed.

(** ** The table *)
(** The table is written anew and nothing else on the disk changes.  Its columns are the GSM date files that are there, in the order of their names; the lines
    are the months from number 4 (April 2002) on, without a gap, each with its calendar month and year, and each entry shows the dates of the file of that
    month, or that there is none.  The call succeeds and the last line is the last month of any date file, or it raises in the first line
    that a date file with one row, or with one month twice, spoils, and the table stops before that line. *)
Theorem C113_table : forall k drel, (forall x rows, found k drel x rows -> rows <> []) -> exists k' out names lines, grace_months_index k drel = (k', out) /\
  k_index k' = k_index k /\ k_dates k' = k_dates k /\ k_table k' = Some (mktable (Some names) lines) /\
  StronglySorted before names /\ (forall x, In x names <-> exists rows, found k drel x rows) /\
  (forall i l, nth_error lines i = Some l -> n_mon l = 4 + Z.of_nat i /\ right_line k drel names l) /\
  (forall l, In l lines -> exists x rows r, found k drel x rows /\ In r rows /\ n_mon l <= w_mon r) /\
  ((out = Ok tt /\ forall x rows r, found k drel x rows -> In r rows -> w_mon r < 4 + Z.of_nat (List.length lines)) \/
   ((exists e, out = Err e) /\ exists x rows, found k drel x rows /\ clash rows (4 + Z.of_nat (List.length lines)))).
Proof.
  intros k drel NE. set (ps := flat_map (fun rl => map (fun pr => (pr, rl)) centres) drel).
  assert (HF : forall x rows, has k ps x rows <-> found k drel x rows) by (intros; apply has_found).
  assert (IC : forall p, In p ps -> In (fst p) centres). { intros p Hp. apply in_flat_map in Hp. destruct Hp as (r & _ & Hp). apply in_map_iff in Hp. destruct Hp as (q & <- & Hq). exact Hq. }
  destruct (collect_ok k ps (fun x rows H => NE x rows (proj1 (HF x rows) H)) IC [] 0 (NoDup_nil _)) as (d & mx & E & ND & K & G & _ & L0 & U & At).
  unfold grace_months_index. fold ps. rewrite E. cbv zeta. destruct (sorted_ok (map fst d) ND) as [SS SI].
  set (names := sorted_names (map fst d)) in *.
  assert (NF : forall x, In x names <-> exists rows, found k drel x rows).
  { intros x. rewrite SI, K. cbn [map In]. split; [intros [[]|[rows H]]; exists rows; apply HF, H|intros [rows H]; right; exists rows; apply HF, H]. }
  unfold arange. destruct (print_spec k drel d names (fun x rows H => G x rows (proj2 (HF x rows) H)) (fun x H => proj1 (NF x) H) (Z.to_nat (mx + 1 - 4)) 4) as (lines & out & P & L & A & O).
  rewrite P. do 2 eexists. exists names, lines. split; [reflexivity|]. split; [reflexivity|]. split; [reflexivity|]. split; [reflexivity|]. split; [exact SS|]. split; [exact NF|]. split; [exact A|]. split.
  - intros l Hl. apply In_nth_error in Hl. destruct Hl as [i Hi]. assert (Li : (i < List.length lines)%nat) by (apply nth_error_Some; congruence). destruct (A i l Hi) as [Em _].
    destruct At as [->|(x & rows & r & H & Hr & Er)]; [lia|]. exists x, rows, r. split; [apply HF, H|]. split; auto. lia.
  - destruct O as [[O1 O2]|(O1 & O2 & O3)]; [left; split; auto|right; auto]. intros x rows r H Hr. apply HF in H. specialize (U x rows r H Hr). lia.
Qed.
(** hence the table is complete exactly if no month from number 4 on clashes *)
Theorem C113_complete_iff : forall k drel, snd (grace_months_index k drel) = Ok tt <->
  forall x rows, found k drel x rows -> rows <> [] /\ forall m, 4 <= m -> ~ clash rows m.
Proof.
  intros k drel. split.
  - intros H. assert (NE : forall x rows, found k drel x rows -> rows <> []).
    { intros x rows F ->. apply has_found in F. unfold grace_months_index in H. rewrite (collect_stop k _ x F) in H. discriminate. }
    destruct (C113_table k drel NE) as (k' & out & names & lines & E & _ & _ & _ & _ & NF & A & _ & O). rewrite E in H. cbn [snd] in H. subst out.
    destruct O as [[_ O]|((e & O) & _)]; [|discriminate]. intros x rows F. split; [eauto|]. intros m Hm C.
    assert (R : exists r, In r rows /\ w_mon r = m). { destruct C as [(r & -> & Er)|(i & j & r & s & _ & A1 & _ & Er & _)]; exists r; split; auto; [left; auto|eapply nth_error_In; eauto]. }
    destruct R as (r & Hr & Er). specialize (O x rows r F Hr). destruct (nth_error lines (Z.to_nat (m - 4))) as [l|] eqn:El; [|apply nth_error_None in El; lia].
    destruct (A _ _ El) as [Em (_ & Ln & Ls)]. destruct (In_nth_error names x) as [j Hj]; [apply NF; eauto|].
    destruct (nth_error (n_cells l) j) as [e|] eqn:Ee. 2: { apply nth_error_None in Ee. assert (j < List.length names)%nat by (apply nth_error_Some; congruence). lia. }
    destruct (Ls j x e rows Hj Ee F) as [_ N]. apply N. rewrite Em. replace (4 + Z.of_nat (Z.to_nat (m - 4))) with m by lia. exact C.
  - intros H. assert (NE : forall x rows, found k drel x rows -> rows <> []) by (intros x rows F; apply (H x rows F)).
    destruct (C113_table k drel NE) as (k' & out & names & lines & E & _ & _ & _ & _ & _ & _ & _ & O). rewrite E. cbn [snd].
    destruct O as [[-> _]|(_ & x & rows & F & C)]; [reflexivity|]. destruct (proj2 (H x rows F) (4 + Z.of_nat (List.length lines))); [lia|exact C].
Qed.
(** Refuted: a date file without rows (an empty index.txt, or a directory with one file, see C113_single_file_refuted) leaves an empty table *)
Theorem C113_empty_date_file_refuted : forall k drel x, found k drel x [] ->
  exists k', grace_months_index k drel = (k', Err ValueError) /\ k_table k' = Some (mktable None []) /\ k_dates k' = k_dates k /\ k_index k' = k_index k.
Proof. intros k drel x F. apply has_found in F. unfold grace_months_index. rewrite (collect_stop k _ x F). eexists. split; [reflexivity|]. repeat split. Qed.
(** without any date file the table is its header *)
Theorem C113_no_date_file : forall k drel, (forall x rows, ~ found k drel x rows) ->
  exists k', grace_months_index k drel = (k', Ok tt) /\ k_table k' = Some (mktable (Some []) []).
Proof.
  intros k drel N. destruct (C113_table k drel (fun x rows F => False_ind _ (N x rows F))) as (k' & out & names & lines & E & _ & _ & T & _ & NF & _ & I & O).
  exists k'. assert (En : names = []). { destruct names as [|x names]; auto. destruct (proj1 (NF x) (or_introl eq_refl)) as [rows F]. destruct (N x rows F). }
  assert (El : lines = []). { destruct lines as [|l lines]; auto. destruct (I l (or_introl eq_refl)) as (x & rows & r & F & _). destruct (N x rows F). }
  subst. split; [|exact T]. rewrite E. destruct O as [[-> _]|(_ & x & rows & F & _)]; [reflexivity|destruct (N x rows F)].
Qed.

(** ** The date files *)
(** the products of a centre *)
Definition product_of (pr d : string) : Prop :=
  (pr = "CSR" /\ In d ["GAC"; "GAD"; "GSM"])%string \/ ((pr = "GFZ" \/ pr = "JPL") /\ In d ["GAA"; "GAB"; "GAC"; "GAD"; "GSM"])%string.
(** the products asked for: known centres, and of the releases only RL04, RL05 and RL06 *)
Definition asked (proc drel : list string) (p : product) : Prop :=
  exists pr rl d, p = (pr, rl, d) /\ In pr proc /\ In rl drel /\ In rl ["RL04"; "RL05"; "RL06"]%string /\ product_of pr d.
Definition known (pr : string) : Prop := In pr ["CSR"; "GFZ"; "JPL"]%string.
(** index.txt lists files with dates in their names, not exactly one *)
Definition listed (k : disk) (p : product) (spans : list span) : Prop := k_index k p = Some (map Some spans) /\ List.length spans <> 1%nat.
(** the lines of the date file: one for each file in the order of the index, its dates, and the month number the dictionary of C12 uses *)
Definition dated (spans : list span) (rows : list drow) : Prop :=
  List.length rows = List.length spans /\ forall i s r, nth_error spans i = Some s -> nth_error rows i = Some r ->
  w_span r = s /\ w_mon r = nth i (adjust_months (grace_months false (map (fun s => mkper (sp_sy s) (inject_Z (sp_sd s)) (sp_ey s) (inject_Z (sp_ed s))) spans))) 0.

Lemma same_ok a b : same a b = true <-> a = b.
Proof.
  destruct a as [[p r] d], b as [[q s] e]. unfold same. rewrite !andb_true_iff, !String.eqb_eq. split; [intros [[-> ->] ->]; reflexivity|]. intros E. injection E as -> -> ->. auto.
Qed.
Lemma row_span s m : w_span (row_of s m) = s /\ w_mon (row_of s m) = m.
Proof. unfold row_of. destruct (dpy (sp_sy s)); split; reflexivity. Qed.
Lemma spans_read spans : mapM (fun o : option span => match o with Some s => Ok s | None => Err IndexError end) (map Some spans) = Ok spans.
Proof. induction spans as [|s l IH]; [reflexivity|]. cbn [map mapM bind]. rewrite IH. reflexivity. Qed.
Definition rows_for (spans : list span) : list drow := map (fun sm => row_of (fst sm) (snd sm)) (combine spans (adjust_months (grace_months false (map to_period spans)))).
Lemma rows_dated spans : dated spans (rows_for spans).
Proof.
  unfold dated, rows_for. set (ms := adjust_months _). assert (L : List.length ms = List.length spans).
  { unfold ms. rewrite AdjustProofs.adjust_months_length. unfold grace_months. rewrite !map_length. reflexivity. }
  change (map (fun s : span => mkper (sp_sy s) (inject_Z (sp_sd s)) (sp_ey s) (inject_Z (sp_ed s))) spans) with (map to_period spans). fold ms. clearbody ms.
  split; [rewrite map_length, combine_length; lia|]. intros i s r Hs Hr. rewrite nth_error_map in Hr.
  destruct (nth_error (combine spans ms) i) as [[a b]|] eqn:E; [|discriminate]. cbn in Hr. injection Hr as <-.
  assert (E1 : a = s /\ nth i ms 0 = b). { clear - E Hs. revert ms i E Hs. induction spans as [|x l IH]; intros [|m ms] [|i] E Hs; cbn in *; try discriminate; [split; congruence|eauto]. }
  destruct E1 as [-> E1]. destruct (row_span s b) as [A B]. split; [exact A|]. rewrite B. symmetry. exact E1.
Qed.
Lemma date_file_ok k p spans : listed k p spans -> date_file k p = (put_dates k p (rows_for spans), Ok tt).
Proof. intros [E L]. unfold date_file. rewrite E, spans_read. destruct spans as [|a [|b t]]; try reflexivity. destruct L; reflexivity. Qed.
Lemma date_file_index k p : k_index (fst (date_file k p)) = k_index k /\ k_table (fst (date_file k p)) = k_table k.
Proof. unfold date_file. destruct (k_index k p) as [l|]; [|auto]. destruct (mapM _ l) as [[|a [|b t]]|]; cbn; auto. Qed.
Lemma in_turn_app {A} (f : disk -> A -> disk * res unit) l1 l2 k : in_turn f (l1 ++ l2) k = match in_turn f l1 k with (k1, Ok _) => in_turn f l2 k1 | (k1, Err e) => (k1, Err e) end.
Proof. revert k. induction l1 as [|x l IH]; intros k; cbn [app in_turn]; [reflexivity|]. destruct (f k x) as [k1 [u|e]]; auto. Qed.
Lemma in_turn_flat {A B} (f : disk -> B -> disk * res unit) (h : A -> list B) l k : in_turn (fun k x => in_turn f (h x) k) l k = in_turn f (flat_map h l) k.
Proof. revert k. induction l as [|x l IH]; intros k; cbn [in_turn flat_map]; [reflexivity|]. rewrite in_turn_app. destruct (in_turn f (h x) k) as [k1 [u|e]]; auto. Qed.
Lemma in_turn_map {A B} (f : disk -> B -> disk * res unit) (h : A -> B) l k : in_turn (fun k x => f k (h x)) l k = in_turn f (map h l) k.
Proof. revert k. induction l as [|x l IH]; intros k; cbn [in_turn map]; [reflexivity|]. destruct (f k (h x)) as [k1 [u|e]]; auto. Qed.
Lemma in_turn_ext {A} (f g : disk -> A -> disk * res unit) l : (forall k x, In x l -> f k x = g k x) -> forall k, in_turn f l k = in_turn g l k.
Proof. induction l as [|x l IH]; intros H k; cbn [in_turn]; [reflexivity|]. rewrite H by (left; auto). destruct (g k x) as [k1 [u|e]]; auto. apply IH. intros; apply H; right; auto. Qed.
Definition sets (pr : string) : list string := match datasets pr with Some l => l | None => [] end.
Definition products_of (drel : list string) (pr : string) : list product :=
  flat_map (fun r => map (fun d => (pr, r, d)) (sets pr)) (filter (fun r => existsb (String.eqb r) valid_releases) drel).
Lemma known_sets pr : known pr -> datasets pr = Some (sets pr) /\ forall d, In d (sets pr) <-> product_of pr d.
Proof.
  unfold known. cbn [In]. intros [<-|[<-|[<-|[]]]]; (split; [reflexivity|]); intros d; cbn -[In]; unfold product_of; (split; [intros H|intros [[E H]|[[E|E] H]]]); auto; try discriminate.
Qed.
Lemma centre_flat drel k pr : known pr -> centre_dates drel k pr = in_turn date_file (products_of drel pr) k.
Proof.
  intros K. unfold centre_dates. rewrite (proj1 (known_sets pr K)). unfold products_of. rewrite <- in_turn_flat. apply in_turn_ext. intros k1 r _. apply (in_turn_map date_file).
Qed.
Lemma proc_flat drel proc k : (forall pr, In pr proc -> known pr) -> in_turn (centre_dates drel) proc k = in_turn date_file (flat_map (products_of drel) proc) k.
Proof. intros K. rewrite <- in_turn_flat. apply in_turn_ext. intros k1 pr I. apply centre_flat. auto. Qed.
Lemma in_products drel proc p : (forall pr, In pr proc -> known pr) -> (In p (flat_map (products_of drel) proc) <-> asked proc drel p).
Proof.
  intros K. rewrite in_flat_map. split.
  - intros (pr & Ip & H). unfold products_of in H. apply in_flat_map in H. destruct H as (r & Ir & Hd). apply in_map_iff in Hd. destruct Hd as (d & <- & Hd).
    apply filter_In in Ir. destruct Ir as [Ir Er]. apply existsb_exists in Er. destruct Er as (v & Iv & Ev). apply String.eqb_eq in Ev. subst v.
    exists pr, r, d. repeat split; auto. apply known_sets; auto.
  - intros (pr & r & d & -> & Ip & Ir & Iv & Hd). exists pr. split; auto. unfold products_of. apply in_flat_map. exists r. split.
    + apply filter_In. split; auto. apply existsb_exists. exists r. split; auto. apply String.eqb_refl.
    + apply in_map_iff. exists d. split; auto. apply known_sets; auto.
Qed.
Lemma turn_dates l : forall k, (forall p, In p l -> exists spans, listed k p spans) -> exists k1, in_turn date_file l k = (k1, Ok tt) /\ k_index k1 = k_index k /\ k_table k1 = k_table k /\
  (forall p spans, In p l -> listed k p spans -> k_dates k1 p = Some (rows_for spans)) /\ (forall p, ~ In p l -> k_dates k1 p = k_dates k p).
Proof.
  induction l as [|p l IH]; intros k H; cbn [in_turn].
  - exists k. repeat split; auto. intros p spans [].
  - destruct (H p (or_introl eq_refl)) as [spans Hs]. rewrite (date_file_ok k p spans Hs).
    set (k0 := put_dates k p (rows_for spans)). assert (LL : forall q sp, listed k0 q sp <-> listed k q sp) by (intros; reflexivity).
    destruct (IH k0) as (k1 & E & I1 & T1 & D1 & D2). { intros q Hq. apply H. right; auto. }
    exists k1. split; [exact E|]. split; [rewrite I1; reflexivity|]. split; [rewrite T1; reflexivity|].
    assert (DD : forall x y : product, {x = y} + {x <> y}) by (repeat decide equality; apply Bool.bool_dec).
    split.
    + intros q sp Hq Hl. destruct (in_dec DD q l) as [I|N]; [apply D1; auto|]. destruct Hq as [<-|Hq]; [|contradiction]. rewrite D2 by auto. cbn. rewrite (proj2 (same_ok p p) eq_refl).
      destruct Hl as [Hl _]. destruct Hs as [Hs _]. rewrite Hs in Hl. injection Hl as Hl. do 2 f_equal.
      clear - Hl. revert sp Hl. induction spans as [|a l IH]; intros [|b m] H; cbn in H; try discriminate; auto. injection H as -> H. f_equal. auto.
    + intros q Nq. rewrite D2 by (intros G; apply Nq; right; auto). cbn. destruct (same q p) eqn:E'; auto. apply same_ok in E'. subst. destruct Nq. left; auto.
Qed.
(** The date file of every product asked for is written, one line for each file of its index; no other date file changes; then the table of months is
    written from these and from the date files that were there before. *)
Theorem C113_run : forall k proc drel, (forall pr, In pr proc -> known pr) -> (forall p, asked proc drel p -> exists spans, listed k p spans) ->
  exists k1, k_index k1 = k_index k /\ k_table k1 = k_table k /\
  (forall p spans, asked proc drel p -> listed k p spans -> exists rows, k_dates k1 p = Some rows /\ dated spans rows) /\
  (forall p, ~ asked proc drel p -> k_dates k1 p = k_dates k p) /\
  run_grace_date k proc drel = grace_months_index k1 drel.
Proof.
  intros k proc drel K H. destruct (turn_dates (flat_map (products_of drel) proc) k) as (k1 & E & I1 & T1 & D1 & D2).
  { intros p Hp. apply H. apply in_products; auto. }
  exists k1. split; [exact I1|]. split; [exact T1|]. split; [|split].
  - intros p spans Hp Hl. eexists. split; [apply D1; [apply in_products; auto|exact Hl]|apply rows_dated].
  - intros p Np. apply D2. intros G. apply Np. apply in_products in G; auto.
  - unfold run_grace_date. rewrite proc_flat by auto. rewrite E. reflexivity.
Qed.
Lemma turn_index l : forall k, k_index (fst (in_turn date_file l k)) = k_index k /\ k_table (fst (in_turn date_file l k)) = k_table k /\
  forall p, ~ In p l -> k_dates (fst (in_turn date_file l k)) p = k_dates k p.
Proof.
  induction l as [|p l IH]; intros k; cbn [in_turn]; [auto|]. destruct (date_file_index k p) as [A B].
  assert (C : forall q, q <> p -> k_dates (fst (date_file k p)) q = k_dates k q).
  { intros q N. unfold date_file. destruct (k_index k p) as [names|]; [|auto]. destruct (mapM _ names) as [[|a [|b t]]|]; cbn; auto; (destruct (same q p) eqn:E; [apply same_ok in E; contradiction|auto]). }
  destruct (date_file k p) as [k1 [u|e]]; cbn [fst] in *.
  - destruct (IH k1) as (I1 & T1 & D1). rewrite I1, T1, A, B. split; [auto|]. split; [auto|]. intros q N. rewrite D1 by (intros G; apply N; right; auto). apply C. intros ->. apply N. left; auto.
  - rewrite A, B. split; [auto|]. split; [auto|]. intros q N. apply C. intros ->. apply N. left; auto.
Qed.
Lemma turn_bad l : forall k p, In p l -> (forall spans, ~ listed k p spans) -> exists k1 e, in_turn date_file l k = (k1, Err e).
Proof.
  induction l as [|q l IH]; intros k p I N; [destruct I|]. cbn [in_turn]. destruct (date_file_index k q) as [A _]. destruct (date_file k q) as [k1 [u|e]] eqn:E; [|eauto]. cbn [fst] in A.
  destruct I as [->|I].
  - exfalso. unfold date_file in E. unfold listed in N. destruct (k_index k p) as [names|]; [|discriminate].
    destruct (mapM _ names) as [spans|e] eqn:M; [|discriminate]. apply (N spans). split.
    + f_equal. clear - M. revert spans M. induction names as [|o names IH]; intros spans M; cbn [mapM] in M; [injection M as <-; reflexivity|]. destruct o as [s|]; cbn [bind] in M; [|discriminate].
      destruct (mapM _ names) as [l|]; cbn [bind] in M; [|discriminate]. injection M as <-. cbn [map]. f_equal. auto.
    + destruct spans as [|a [|b t]]; cbn; try lia. discriminate.
  - apply (IH k1 p I). intros spans. unfold listed. rewrite A. apply N.
Qed.
(** Refuted: one product without an index, with a file name without dates, or with exactly one file, ends the run before the table of months is written *)
Theorem C113_one_bad_product_refuted : forall k proc drel p, (forall pr, In pr proc -> known pr) -> asked proc drel p -> (forall spans, ~ listed k p spans) ->
  exists k' e, run_grace_date k proc drel = (k', Err e) /\ k_table k' = k_table k /\ forall q, ~ asked proc drel q -> k_dates k' q = k_dates k q.
Proof.
  intros k proc drel p K Ha N. unfold run_grace_date. rewrite proc_flat by auto. set (l := flat_map (products_of drel) proc).
  assert (I : In p l) by (apply in_products; auto). destruct (turn_bad l k p I N) as (k1 & e & E). pose proof (turn_index l k) as (_ & T & D). rewrite E in T, D. rewrite E. cbn [fst] in T, D.
  exists k1, e. split; [reflexivity|]. split; [exact T|]. intros q Nq. apply D. intros G. apply Nq. apply in_products in G; auto.
Qed.
(** VALID[p] of a centre that is not CSR, GFZ or JPL: KeyError (or an earlier failure), and no table of months *)
Theorem C113_unknown_centre : forall k proc drel pr, In pr proc -> ~ known pr -> drel <> [] ->
  exists k' e, run_grace_date k proc drel = (k', Err e) /\ k_table k' = k_table k.
Proof.
  intros k proc drel pr I N D. unfold run_grace_date.
  assert (U : forall k, centre_dates drel k pr = (k, Err KeyError)).
  { intros k0. unfold centre_dates, datasets. unfold known in N. cbn [In] in N. destruct (String.eqb_spec pr "CSR"); [subst; tauto|]. destruct (String.eqb_spec pr "GFZ"); [subst; tauto|]. destruct (String.eqb_spec pr "JPL"); [subst; tauto|].
    destruct drel; [congruence|reflexivity]. }
  assert (T : forall q k0, k_table (fst (centre_dates drel k0 q)) = k_table k0).
  { intros q k0. unfold centre_dates. destruct (datasets q) as [ds|]; [|destruct drel; reflexivity]. 
    rewrite (in_turn_ext _ (fun k r => in_turn date_file (map (fun d => (q, r, d)) ds) k)) by (intros; apply (in_turn_map date_file)). rewrite in_turn_flat. apply turn_index. }
  assert (G : exists k1 e, in_turn (centre_dates drel) proc k = (k1, Err e) /\ k_table k1 = k_table k).
  { clear D. revert k. induction proc as [|q proc IH]; intros k; [destruct I|]. cbn [in_turn]. specialize (T q k). destruct (centre_dates drel k q) as [k1 [u|e]] eqn:E; cbn [fst] in T.
    - destruct I as [->|I]; [rewrite U in E; discriminate|]. destruct (IH I k1) as (k2 & e & E2 & T2). exists k2, e. split; [exact E2|congruence].
    - exists k1, e. auto. }
  destruct G as (k1 & e & E & T1). rewrite E. exists k1, e. auto.
Qed.
Theorem C113_unknown_centre_alone : forall k pr drel, ~ known pr -> drel <> [] -> run_grace_date k [pr] drel = (k, Err KeyError).
Proof.
  intros k pr drel N D. unfold run_grace_date. cbn [in_turn]. unfold centre_dates, datasets. unfold known in N. cbn [In] in N.
  destruct (String.eqb_spec pr "CSR"); [subst; tauto|]. destruct (String.eqb_spec pr "GFZ"); [subst; tauto|]. destruct (String.eqb_spec pr "JPL"); [subst; tauto|]. destruct drel; [congruence|reflexivity].
Qed.
(** Refuted: the date files of a release other than RL04, RL05 and RL06 (v02.4 is among the default releases) are never written: the table
    shows them as they were left by an earlier program, whatever files are now listed in the index *)
Theorem C113_other_release_refuted : forall k proc drel pr rl d, (forall q, In q proc -> known q) -> ~ In rl ["RL04"; "RL05"; "RL06"]%string ->
  k_dates (fst (run_grace_date k proc drel)) (pr, rl, d) = k_dates k (pr, rl, d).
Proof.
  intros k proc drel pr rl d K N. unfold run_grace_date. rewrite proc_flat by auto. set (l := flat_map (products_of drel) proc).
  pose proof (turn_index l k) as (_ & _ & D). assert (NI : ~ In (pr, rl, d) l). { intros G. apply in_products in G; auto. destruct G as (a & b & c & E & _ & _ & V & _). injection E as -> -> ->. contradiction. }
  specialize (D _ NI). destruct (in_turn date_file l k) as [k1 [u|e]]; cbn [fst] in *; [|exact D]. rewrite <- D.
  unfold grace_months_index. destruct (collect _ _ _ _) as [[c mx]|]; [|reflexivity]. destruct (print_lines _ _ _). reflexivity.
Qed.
(** Refuted: a product with exactly one file ends in IndexError and loses its date file; the next table of months is empty *)
Theorem C113_single_file_refuted : forall k pr rl s, In pr ["CSR"; "GFZ"; "JPL"]%string -> k_index k (pr, rl, "GSM"%string) = Some [Some s] ->
  exists k1, date_file k (pr, rl, "GSM"%string) = (k1, Err IndexError) /\ k_dates k1 (pr, rl, "GSM"%string) = Some [] /\
  forall drel, In rl drel -> exists k2, grace_months_index k1 drel = (k2, Err ValueError) /\ k_table k2 = Some (mktable None []).
Proof.
  intros k pr rl s I E. set (p := (pr, rl, "GSM"%string)) in *. exists (put_dates k p []). split; [unfold date_file; rewrite E; reflexivity|].
  assert (D : k_dates (put_dates k p []) p = Some []) by (cbn [put_dates k_dates]; rewrite (proj2 (same_ok p p) eq_refl); reflexivity). split; [exact D|].
  intros drel Ir. destruct (C113_empty_date_file_refuted (put_dates k p []) drel (col_name pr rl)) as (k2 & E2 & T2 & _); [|exists k2; auto].
  exists pr, rl. split; [cbn [In] in *; intuition|]. auto.
Qed.

(** ** From the file name to the table *)
(** the file covers days x to y, and the day z contains their middle *)
Definition centred (s : span) (z : date) : Prop := exists x y, covers (mkper (sp_sy s) (inject_Z (sp_sd s)) (sp_ey s) (inject_Z (sp_ed s))) x y /\ regular_year (dy x) /\
  valid_greg z /\ exists r, (r = 0 \/ r = 1) /\ gday x + gday y = 2 * gday z + r.
Definition month_no (z : date) : Z := 12 * (dy z - 2002) + dm z.
Lemma centred_month s z first : centred s z -> exists t d, date_row false first (to_period s) = Some (t, d, month_no z).
Proof.
  intros (x & y & C & RY & Vz & r & R & E). pose proof C as (V1 & V2 & G & Y & Ep). unfold date_row.
  assert (NY : dpy (p_sy (to_period s)) = Some (year_len (dy x))). { unfold to_period. rewrite Ep. cbn [p_sy]. apply dpy_ok, RY. }
  rewrite NY. assert (M : mid_date (year_len (dy x)) (to_period s) = (dy z, dm z)) by (apply (mid_date_ok _ x y z r); auto; lia). rewrite M.
  eexists _, _. do 3 f_equal. unfold calendar_to_grace, month_no. f_equal.
  assert (Q1 : (12 * (inject_Z (dy z) - 2002) == inject_Z (12 * (dy z - 2002)))%Q). { rewrite inject_Z_mult. unfold Z.sub. rewrite inject_Z_plus. reflexivity. }
  rewrite Q1. apply Qround.Qfloor_Z.
Qed.
Lemma centred_months spans zs : Forall2 centred spans zs -> grace_months false (map to_period spans) = map month_no zs.
Proof.
  intros F. unfold grace_months. set (first := match map to_period spans with [] => _ | _ => _ end). clearbody first. rewrite map_map.
  induction F as [|s z spans zs H F IH]; [reflexivity|]. cbn [map]. rewrite IH. f_equal. destruct (centred_month s z first H) as (t & d & ->). reflexivity.
Qed.
(** If the run succeeds, every file of an RL04-RL06 GSM product is in the table: in the line of the calendar month that contains the middle of its days (no two
    files of the product share one), in the column of the product, with its own dates. *)
Theorem C113_file_in_table : forall k proc drel k' pr rl spans zs i s z,
  (forall q, In q proc -> known q) -> (forall p, asked proc drel p -> exists sp, listed k p sp) -> run_grace_date k proc drel = (k', Ok tt) ->
  asked proc drel (pr, rl, "GSM"%string) -> listed k (pr, rl, "GSM"%string) spans -> Forall2 centred spans zs -> NoDup (map month_no zs) ->
  nth_error spans i = Some s -> nth_error zs i = Some z -> 4 <= month_no z ->
  exists names lines j l, k_table k' = Some (mktable (Some names) lines) /\ nth_error names j = Some (pr ++ "_" ++ rl)%string /\
  nth_error lines (Z.to_nat (month_no z - 4)) = Some l /\ n_mon l = month_no z /\ n_year l = dy z /\ nth_error (n_cells l) j = Some (Shown s).
Proof.
  intros k proc drel k' pr rl spans zs i s z K H R Ha Hl F ND Hs Hz Hm.
  destruct (C113_run k proc drel K H) as (k1 & _ & _ & D & _ & E). rewrite R in E. destruct (D _ _ Ha Hl) as (rows & Er & Hlen & Hd).
  assert (Fd : found k1 drel (pr ++ "_" ++ rl)%string rows).
  { exists pr, rl. destruct Ha as (a & b & c & Ea & Ip & Ir & _). injection Ea as <- <- <-. split; [|auto]. specialize (K pr Ip). unfold known in K. cbn [In] in *. intuition. }
  assert (OK : snd (grace_months_index k1 drel) = Ok tt) by (rewrite <- E; reflexivity). pose proof (proj1 (C113_complete_iff k1 drel) OK) as CO.
  destruct (C113_table k1 drel (fun x rows Fx => proj1 (CO x rows Fx))) as (k2 & out & names & lines & E2 & _ & _ & T & _ & NF & A & _ & O). rewrite E2 in E. injection E as <- <-.
  destruct O as [[_ O]|((e & O) & _)]; [|discriminate]. set (r := nth i rows (mkrow 0%Q 0 s 0)).
  assert (Li : (i < List.length rows)%nat) by (rewrite Hlen; apply nth_error_Some; congruence).
  assert (Hr : nth_error rows i = Some r) by (apply nth_error_nth'; auto). clearbody r. destruct (Hd i s r Hs Hr) as [Hsp Hmo].
  change (map _ spans) with (map to_period spans) in Hmo. rewrite (centred_months spans zs F), AdjustProofs.adjust_nodup in Hmo by auto.
  assert (Em : w_mon r = month_no z). { rewrite Hmo. assert (E' : nth_error (map month_no zs) i = Some (month_no z)) by (rewrite nth_error_map, Hz; reflexivity). apply (nth_error_nth _ _ _ E'). }
  assert (Ir : In r rows) by (eapply nth_error_In; eauto). specialize (O _ _ r Fd Ir). rewrite Em in O.
  destruct (In_nth_error names (pr ++ "_" ++ rl)%string) as [j Hj]; [apply NF; eauto|].
  destruct (nth_error lines (Z.to_nat (month_no z - 4))) as [l|] eqn:El; [|apply nth_error_None in El; lia]. destruct (A _ _ El) as [Enm RL].
  assert (En : n_mon l = month_no z) by lia. exists names, lines, j, l. split; [exact T|]. split; [exact Hj|]. split; [exact El|]. split; [exact En|].
  pose proof RL as ((mo & Lm & Ey & _) & Lc & Ls). split.
  - assert (V : 1 <= dm z <= 12). { clear - F Hz. assert (C : exists s, centred s z). { apply nth_error_In in Hz. clear - F Hz. induction F; [destruct Hz|]. destruct Hz as [->|Hz]; eauto. } destruct C as (s & x & y & _ & _ & V & _). apply V. }
    unfold month_no in En. lia.
  - destruct (nth_error (n_cells l) j) as [e|] eqn:Ee. 2: { apply nth_error_None in Ee. assert (j < List.length names)%nat by (apply nth_error_Some; congruence). lia. }
    destruct (Ls j _ e rows Hj Ee Fd) as [Sa _]. destruct e as [|s']; [destruct (Sa r Ir); congruence|]. destruct Sa as (r' & Ir' & Em' & Es'). do 2 f_equal. rewrite <- Es', <- Hsp.
    f_equal. destruct (CO _ _ Fd) as [_ NC]. specialize (NC (month_no z) Hm). apply In_nth_error in Ir'. destruct Ir' as [i' Hi'].
    destruct (Nat.lt_trichotomy i i') as [L|[L|L]]; [|subst; congruence|]; exfalso; apply NC; right; [exists i, i', r, r'|exists i', i, r', r]; repeat split; auto; congruence.
Qed.

(** ** A case *)
Definition ex_spans : list span := [mkspan 2002 95 2002 120; mkspan 2002 122 2002 137; mkspan 2002 213 2002 243].
Definition ex_disk : disk := mkdisk
  (fun p => match p with (_, rl, _) => if String.eqb rl "RL06" then Some (map Some ex_spans) else None end)
  (fun p => match p with (pr, rl, d) => if (String.eqb pr "GSFC" && String.eqb rl "v02.4" && String.eqb d "GSM")%bool then Some [mkrow 0 6 (mkspan 2002 152 2002 181) 166; mkrow 0 7 (mkspan 2002 182 2002 212) 197] else None end)
  None.
Example C113_nonvacuous : (forall pr, In pr ["CSR"; "JPL"]%string -> known pr) /\
  (forall p, asked ["CSR"; "JPL"]%string ["RL06"; "v02.4"]%string p -> listed ex_disk p ex_spans) /\ asked ["CSR"; "JPL"]%string ["RL06"; "v02.4"]%string ("CSR", "RL06", "GSM")%string /\
  Forall2 centred ex_spans [mkdate 2002 4 17; mkdate 2002 5 9; mkdate 2002 8 16] /\
  (exists k', run_grace_date ex_disk ["CSR"; "JPL"]%string ["RL06"; "v02.4"]%string = (k', Ok tt) /\
   k_table k' = Some (mktable (Some ["CSR_RL06"; "GSFC_v02.4"; "JPL_RL06"]%string)
     [mkline 4 "Apr" 2002 [Shown (mkspan 2002 95 2002 120); Missing; Shown (mkspan 2002 95 2002 120)];
      mkline 5 "May" 2002 [Shown (mkspan 2002 122 2002 137); Missing; Shown (mkspan 2002 122 2002 137)];
      mkline 6 "Jun" 2002 [Missing; Shown (mkspan 2002 152 2002 181); Missing];
      mkline 7 "Jul" 2002 [Missing; Shown (mkspan 2002 182 2002 212); Missing];
      mkline 8 "Aug" 2002 [Shown (mkspan 2002 213 2002 243); Missing; Shown (mkspan 2002 213 2002 243)]])).
Proof.
  split; [cbn; unfold known; cbn; intuition|]. split.
  { intros p (pr & rl & d & -> & _ & I & V & _). split; [|cbn; lia]. cbn [In] in I, V. destruct I as [<-|[<-|[]]]; [reflexivity|]. destruct V as [V|[V|[V|[]]]]; discriminate. }
  split; [exists "CSR"%string, "RL06"%string, "GSM"%string; repeat split; cbn; auto; left; cbn; auto|]. split.
  { assert (RY : regular_year 2002) by (repeat split; try (cbn; lia); try (intros [H _]; cbn in H; lia); vm_compute; congruence).
    repeat constructor.
    - exists (mkdate 2002 4 5), (mkdate 2002 4 30). split; [|split; [exact RY|]]; [repeat split; try (cbn; lia); try (vm_compute; congruence); left; reflexivity|]. split; [repeat split; cbn; lia|]. exists 1. split; [auto|reflexivity].
    - exists (mkdate 2002 5 2), (mkdate 2002 5 17). split; [|split; [exact RY|]]; [repeat split; try (cbn; lia); try (vm_compute; congruence); left; reflexivity|]. split; [repeat split; cbn; lia|]. exists 1. split; [auto|reflexivity].
    - exists (mkdate 2002 8 1), (mkdate 2002 8 31). split; [|split; [exact RY|]]; [repeat split; try (cbn; lia); try (vm_compute; congruence); left; reflexivity|]. split; [repeat split; cbn; lia|]. exists 0. split; [auto|reflexivity]. }
  eexists. split; [vm_compute; reflexivity|]. vm_compute. reflexivity.
Qed.
(** two files of month 8 in one date file: the table stops before that month *)
Example C113_clash_nonvacuous : exists k rows, k_dates k ("CSR", "RL06", "GSM")%string = Some rows /\ clash rows 8 /\
  exists k' l4 l5 l6 l7, grace_months_index k ["RL06"]%string = (k', Err ValueError) /\ k_table k' = Some (mktable (Some ["CSR_RL06"]%string) [l4; l5; l6; l7]).
Proof.
  set (rows := [mkrow 0 4 (mkspan 2002 95 2002 120) 0; mkrow 0 8 (mkspan 2002 213 2002 243) 0; mkrow 0 8 (mkspan 2002 214 2002 243) 0; mkrow 0 9 (mkspan 2002 244 2002 270) 0]).
  exists (mkdisk (fun _ => None) (fun p => if same p ("CSR", "RL06", "GSM")%string then Some rows else None) None), rows. split; [reflexivity|]. split.
  { right. exists 1%nat, 2%nat. do 2 eexists. repeat split; auto. }
  do 5 eexists. split; vm_compute; reflexivity.
Qed.
