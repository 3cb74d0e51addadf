(** C60 create_unique_file, C61 even/ceil, C62 CMR responses, C74 argument lines, C75 CMR names. *)
From Coq Require Import Reals Lra Ascii String DecimalString DecimalNat FinFun.
From Verif Require Import Base UtilModel.
Close Scope Z_scope.
Open Scope list_scope.
Notation text := (list ascii).

(** ** C61 *)
Open Scope R_scope.
Theorem C61_even : forall x, Z.Even (even x) /\ IZR (even x) <= x /\ forall n, Z.Even n -> IZR n <= x -> (n <= even x)%Z.
Proof.
  intros x. unfold even. destruct (base_Int_part (x / 2)) as [L U]. set (k := Int_part (x / 2)) in *.
  split; [exists k; reflexivity|]. split; [rewrite mult_IZR; lra|].
  intros n [m ->] Hn. rewrite mult_IZR in Hn. assert (m < k + 1)%Z; [|lia]. apply lt_IZR. rewrite plus_IZR. lra.
Qed.
Theorem C61_ceil : forall x, x <= IZR (ceil x) /\ forall n, x <= IZR n -> (ceil x <= n)%Z.
Proof.
  intros x. unfold ceil. destruct (base_Int_part (- x / 1)) as [L U]. set (k := Int_part (- x / 1)) in *.
  split; [rewrite opp_IZR; lra|]. intros n Hn. assert (- n < k + 1)%Z; [|lia]. apply lt_IZR. rewrite plus_IZR, opp_IZR. lra.
Qed.
Example C61_nonvacuous : even (-3 / 2) = (-2)%Z /\ ceil (-3 / 2) = (-1)%Z.
Proof.
  split.
  - destruct (C61_even (-3 / 2)) as (_ & A & B). assert (-2 <= even (-3/2))%Z by (apply B; [exists (-1)%Z; reflexivity|lra]).
    assert (even (-3/2) < -1)%Z by (apply lt_IZR; lra). lia.
  - destruct (C61_ceil (-3 / 2)) as (A & B). assert (ceil (-3/2) <= -1)%Z by (apply B; lra). assert (-2 < ceil (-3/2))%Z by (apply lt_IZR; lra). lia.
Qed.
Close Scope R_scope.

(** ** C60 *)
Open Scope string_scope.
Lemma append_assoc a b c : (a ++ b) ++ c = a ++ b ++ c.
Proof. induction a; cbn; congruence. Qed.
Lemma append_len a b : String.length (a ++ b) = (String.length a + String.length b)%nat.
Proof. induction a; cbn; congruence. Qed.
Lemma append_inj_l a b c : a ++ b = a ++ c -> b = c.
Proof. induction a; cbn; auto. intros H. injection H. auto. Qed.
Lemma append_inj_r a b s : a ++ s = b ++ s -> a = b.
Proof.
  revert b. induction a as [|x a IH]; intros [|y b] H; auto.
  - apply (f_equal String.length) in H. cbn in H. rewrite append_len in H. lia.
  - apply (f_equal String.length) in H. cbn in H. rewrite append_len in H. lia.
  - cbn in H. injection H as -> H. f_equal. auto.
Qed.
(** the directory as other processes may change it: [present k name] when attempt k is made *)
Definition opens_in (writable : bool) (present : nat -> string -> bool) (k : nat) (name : string) : bool := writable && negb (present k name).
(** the decimal numeral of k *)
Definition numeral (d : string) (k : nat) : Prop := d = NilEmpty.string_of_uint (Nat.to_uint k).
Lemma numeral_inj d j k : numeral d j -> numeral d k -> j = k.
Proof.
  unfold numeral. intros A B. rewrite <- (Unsigned.of_to j), <- (Unsigned.of_to k). f_equal.
  pose proof (NilEmpty.usu (Nat.to_uint j)) as U. pose proof (NilEmpty.usu (Nat.to_uint k)) as V. rewrite <- A in U. rewrite <- B in V. congruence.
Qed.
(** the k-th name tried: stem.ext, stem_1.ext, stem_2.ext ... *)
Definition tried (stem suffix : string) (k : nat) (name : string) : Prop :=
  (k = 0%nat /\ name = stem ++ suffix) \/ (k > 0)%nat /\ exists d, numeral d k /\ name = stem ++ "_" ++ d ++ suffix.
Lemma decimal_numeral k : numeral (decimal k) k.
Proof. reflexivity. Qed.
Lemma tried_candidate stem suffix k n : tried stem suffix k n -> n = candidate stem suffix k.
Proof. intros [[-> ->]|(K & d & -> & ->)]; [reflexivity|]. destruct k; [lia|reflexivity]. Qed.
Lemma candidate_tried stem suffix k : tried stem suffix k (candidate stem suffix k).
Proof. destruct k; [left; auto|right]. split; [lia|]. exists (decimal (S k)). split; [apply decimal_numeral|reflexivity]. Qed.
Lemma candidate_inj stem suffix j k : candidate stem suffix j = candidate stem suffix k -> j = k.
Proof.
  assert (Z : forall n, stem ++ suffix <> stem ++ "_" ++ decimal n ++ suffix).
  { intros n H. apply append_inj_l in H. apply (f_equal String.length) in H. rewrite !append_len in H. cbn in H. lia. }
  destruct j as [|j], k as [|k]; intros H; auto.
  - exfalso. exact (Z _ H).
  - exfalso. exact (Z _ (eq_sym H)).
  - unfold candidate in H. apply append_inj_l in H. apply append_inj_l in H. apply append_inj_r in H.
    apply (numeral_inj (decimal (S j))); [apply decimal_numeral|rewrite H; apply decimal_numeral].
Qed.
Lemma loop_some opens stem suffix fuel k i name : unique_loop opens stem suffix k fuel = Some (i, name) ->
  (k <= i < k + fuel)%nat /\ name = candidate stem suffix i /\ opens i name = true /\ forall j, (k <= j < i)%nat -> opens j (candidate stem suffix j) = false.
Proof.
  revert k. induction fuel as [|f IH]; intros k H; [discriminate|]. cbn in H. destruct (opens k (candidate stem suffix k)) eqn:E.
  - injection H as <- <-. repeat split; auto; lia.
  - apply IH in H. destruct H as (A & B & C & D). repeat split; auto; try lia. intros j Hj. destruct (Nat.eq_dec j k) as [->|]; auto. apply D. lia.
Qed.
Lemma loop_none opens stem suffix fuel k : unique_loop opens stem suffix k fuel = None ->
  forall j, (k <= j < k + fuel)%nat -> opens j (candidate stem suffix j) = false.
Proof.
  revert k. induction fuel as [|f IH]; intros k H j Hj; [lia|]. cbn in H. destruct (opens k (candidate stem suffix k)) eqn:E; [discriminate|].
  destruct (Nat.eq_dec j k) as [->|]; auto. apply (IH (S k)); auto. lia.
Qed.
(** the file opened did not exist at the moment of opening, so no existing file is overwritten; it is the first free name *)
Theorem C60_fresh : forall writable present stem suffix fuel k name,
  create_unique_file (opens_in writable present) stem suffix fuel = Some (k, name) ->
  present k name = false /\ tried stem suffix k name /\ writable = true /\
  forall j n, (j < k)%nat -> tried stem suffix j n -> present j n = true.
Proof.
  intros wr pr stem suffix fuel k name H. apply loop_some in H. destruct H as (_ & -> & O & D). unfold opens_in in *. apply andb_prop in O. destruct O as [-> O].
  split; [destruct (pr k (candidate stem suffix k)); auto; discriminate|]. split; [apply candidate_tried|]. split; auto.
  intros j n Hj T. apply tried_candidate in T. subst n. specialize (D j ltac:(lia)). cbn in D. destruct (pr j (candidate stem suffix j)); auto; discriminate.
Qed.
(** in a writable directory where only the finitely many names E ever exist, it returns after at most |E|+1 attempts *)
Theorem C60_terminates : forall present stem suffix E, (forall k n, present k n = true -> In n E) ->
  exists k name, create_unique_file (opens_in true present) stem suffix (S (List.length E)) = Some (k, name) /\ (k <= List.length E)%nat.
Proof.
  intros pr stem suffix E HE. destruct (create_unique_file (opens_in true pr) stem suffix (S (List.length E))) as [[k name]|] eqn:Q.
  - exists k, name. split; auto. apply loop_some in Q. lia.
  - exfalso. assert (I : forall j, (j < S (List.length E))%nat -> In (candidate stem suffix j) E).
    { intros j Hj. apply (HE j). pose proof (loop_none _ _ _ _ _ Q j ltac:(lia)) as D. unfold opens_in in D. cbn in D. destruct (pr j _); auto; discriminate. }
    set (names := map (candidate stem suffix) (seq 0 (S (List.length E)))).
    assert (ND : NoDup names). { apply Injective_map_NoDup; [intros a b; apply candidate_inj|apply seq_NoDup]. }
    assert (INC : incl names E). { intros n Hn. apply in_map_iff in Hn. destruct Hn as (j & <- & Hj). apply I. apply in_seq in Hj. lia. }
    pose proof (NoDup_incl_length ND INC) as LE. unfold names in LE. rewrite map_length, seq_length in LE. lia.
Qed.
(** names tried at different attempts differ *)
Theorem C60_distinct : forall stem suffix j k n, tried stem suffix j n -> tried stem suffix k n -> j = k.
Proof.
  assert (Z : forall stem suffix d, stem ++ suffix <> stem ++ "_" ++ d ++ suffix).
  { intros stem suffix d H. apply append_inj_l in H. apply (f_equal String.length) in H. rewrite !append_len in H. cbn in H. lia. }
  intros stem suffix j k n [[-> E]|(J & d & Nd & E)] [[-> F]|(K & e & Ne & F)]; auto.
  { exfalso. apply (Z stem suffix e). congruence. }
  { exfalso. apply (Z stem suffix d). congruence. }
  rewrite E in F. apply append_inj_l in F. apply append_inj_l in F. apply append_inj_r in F. subst e.
  eapply numeral_inj; eauto.
Qed.
(** Refuted for a directory that cannot be written (every OSError is taken for an existing file): the loop never ends *)
Theorem C60_unwritable_refuted : forall present stem suffix fuel, create_unique_file (opens_in false present) stem suffix fuel = None.
Proof. intros pr stem suffix fuel. unfold create_unique_file. generalize 0%nat as k. induction fuel as [|f IH]; intros k; auto. cbn. apply IH. Qed.
Example C60_nonvacuous : let E := ["out.nc"; "out_1.nc"; "out_3.nc"] in
  create_unique_file (opens_in true (fun _ n => existsb (String.eqb n) E)) "out" ".nc" 4 = Some (2%nat, "out_2.nc").
Proof. reflexivity. Qed.
Close Scope string_scope.

(** ** C62 *)
Definition first_with (rel : string) (links : list (string * string)) : option string :=
  match find (fun l => String.eqb (fst l) rel) links with Some (_, h) => Some h | None => None end.
Lemma first_link_spec ep rel links : relation ep = Ok rel -> first_link ep links = Ok (first_with rel links).
Proof.
  intros R. induction links as [|[r h] links IH]; [reflexivity|]. unfold first_with in *. cbn [first_link find fst]. rewrite R. cbn [bind].
  destruct (String.eqb r rel); auto.
Qed.
Definition opt_list {A} (o : option A) : list A := match o with Some a => [a] | None => [] end.
Lemma loop_spec ep rel es : relation ep = Ok rel -> forall n u t,
  cmr_loop ep es n u t = Ok (Three (n ++ map e_title es) (u ++ flat_map (fun e => opt_list (first_with rel (e_links e))) es) (t ++ map e_mtime es)).
Proof.
  intros R. induction es as [|e es IH]; intros n u t.
  - cbn. rewrite !app_nil_r. reflexivity.
  - cbn [cmr_loop]. rewrite (first_link_spec ep rel) by auto. cbn [bind]. rewrite IH. cbn [map flat_map]. rewrite <- !app_assoc. reflexivity.
Qed.
Definition known (ep rel : string) : Prop :=
  (ep = "data"%string /\ rel = "http://esipfed.org/ns/fedsearch/1.1/data#"%string) \/ (ep = "s3"%string /\ rel = "http://esipfed.org/ns/fedsearch/1.1/s3#"%string).
Lemma known_rel ep rel : known ep rel <-> relation ep = Ok rel.
Proof.
  unfold known, relation. split.
  - intros [[-> ->]|[-> ->]]; reflexivity.
  - destruct (String.eqb ep "data") eqn:E; [apply String.eqb_eq in E; intros H; injection H as <-; auto|].
    destruct (String.eqb ep "s3") eqn:F; [apply String.eqb_eq in F; intros H; injection H as <-; auto|discriminate].
Qed.
(** e's href of the wanted relation that comes first in its link list *)
Definition granule_url (rel : string) (e : entry) (h : string) : Prop :=
  exists before after, e_links e = before ++ (rel, h) :: after /\ forall l, In l before -> fst l <> rel.
Lemma first_with_some rel links h : first_with rel links = Some h <-> exists b a, links = b ++ (rel, h) :: a /\ forall l, In l b -> fst l <> rel.
Proof.
  unfold first_with. induction links as [|[r x] links IH]; cbn [find fst].
  - split; [discriminate|]. intros ([|? b] & a & E & _); discriminate.
  - destruct (String.eqb r rel) eqn:Q.
    + apply String.eqb_eq in Q. subst r. split.
      * intros E. injection E as <-. exists [], links. split; auto; intros l [].
      * intros ([|[r' x'] b] & a & E & N); [injection E as -> _; reflexivity|]. exfalso. injection E as <- <- _. apply (N (rel, x)); [left; auto|reflexivity].
    + apply String.eqb_neq in Q. rewrite IH. split; intros (b & a & E & N).
      * exists ((r, x) :: b), a. split; [rewrite E; reflexivity|]. intros l [<-|Hl]; auto.
      * destruct b as [|[r' x'] b]; [injection E as -> _; congruence|]. injection E as <- <- E. exists b, a. split; auto. intros l Hl. apply N. right. auto.
Qed.
Definition has_link (rel : string) (e : entry) : Prop := exists h, In (rel, h) (e_links e).
Lemma has_first rel e : has_link rel e <-> exists h, first_with rel (e_links e) = Some h.
Proof.
  unfold has_link. induction (e_links e) as [|[r x] l IH]; [split; intros [h H]; [destruct H|discriminate]|].
  unfold first_with in *. cbn [find fst]. destruct (String.eqb r rel) eqn:Q.
  - apply String.eqb_eq in Q. subst r. split; intros _; [exists x; reflexivity|exists x; left; reflexivity].
  - apply String.eqb_neq in Q. rewrite <- IH. split; intros [h H]; exists h; [destruct H as [H|H]; [congruence|exact H]|right; exact H].
Qed.
(** names and times are listed one per entry, in order; urls one per entry that has a link of the wanted relation, in order *)
Theorem C62_lists : forall es ep rel, known ep rel -> exists urls,
  cmr_filter_json (Some es) ep = Ok (Three (map e_title es) urls (map e_mtime es)) /\
  (Forall (has_link rel) es -> Forall2 (granule_url rel) es urls) /\
  (List.length urls <= List.length es)%nat /\ (List.length urls = List.length es <-> Forall (has_link rel) es).
Proof.
  intros es ep rel K. apply known_rel in K. unfold cmr_filter_json. rewrite (loop_spec ep rel es K). eexists. split; [reflexivity|]. cbn [app].
  split; [|].
  - induction es as [|e es IH]; intros F; cbn; [constructor|]. inversion F as [|? ? H1 H2]; subst. apply has_first in H1. destruct H1 as [h Hh]. rewrite Hh. cbn.
    constructor; auto. apply first_with_some in Hh. exact Hh.
  - induction es as [|e es [L I]]; cbn; [split; auto; split; auto|]. rewrite app_length.
    destruct (first_with rel (e_links e)) as [h|] eqn:Q; cbn [opt_list List.length].
    + split; [lia|]. split.
      * intros E. constructor; [apply has_first; eauto|apply I; lia].
      * intros F. inversion F as [|? ? H1 H2]; subst. apply I in H2. lia.
    + split; [lia|]. split; [intros E; lia|]. intros F. inversion F as [|? ? H1 H2]; subst. apply has_first in H1. destruct H1 as [h H1]. congruence.
Qed.
(** Refuted: an entry without such a link shifts the urls of the entries after it *)
Theorem C62_misaligned_refuted : exists es, cmr_filter_json (Some es) "data" = Ok (Three ["a"; "b"]%string ["url of b"]%string [Some 0%Z; Some 1%Z]).
Proof.
  exists [mkentry "a" (Some 0%Z) []; mkentry "b" (Some 1%Z) [("http://esipfed.org/ns/fedsearch/1.1/data#", "url of b")%string]]. reflexivity.
Qed.
(** Refuted: a response without entries gives two lists, not three; an empty feed gives three *)
Theorem C62_missing_feed_refuted : forall ep, cmr_filter_json None ep = Ok (Two [] []) /\ cmr_filter_json (Some []) ep = Ok (Three [] [] []).
Proof. split; reflexivity. Qed.
(** an unknown endpoint raises KeyError exactly when some entry has a link *)
Theorem C62_unknown_endpoint : forall es ep, (forall rel, ~ known ep rel) ->
  cmr_filter_json (Some es) ep = if existsb (fun e => negb (Nat.eqb (List.length (e_links e)) 0)) es then Err KeyError else Ok (Three (map e_title es) [] (map e_mtime es)).
Proof.
  intros es ep N. assert (R : relation ep = Err KeyError).
  { unfold relation in *. destruct (String.eqb ep "data") eqn:E; [exfalso; apply (N "http://esipfed.org/ns/fedsearch/1.1/data#"%string); left; split; auto; apply String.eqb_eq; auto|].
    destruct (String.eqb ep "s3") eqn:F; [exfalso; apply (N "http://esipfed.org/ns/fedsearch/1.1/s3#"%string); right; split; auto; apply String.eqb_eq; auto|reflexivity]. }
  unfold cmr_filter_json. assert (G : forall n t, cmr_loop ep es n [] t = if existsb (fun e => negb (Nat.eqb (List.length (e_links e)) 0)) es then Err KeyError else Ok (Three (n ++ map e_title es) [] (t ++ map e_mtime es))).
  { induction es as [|e es IH]; intros n t; [cbn; rewrite !app_nil_r; reflexivity|]. cbn [cmr_loop existsb map]. destruct (e_links e) as [|[r h] l]; cbn [first_link bind List.length Nat.eqb negb orb].
    - rewrite app_nil_r. rewrite IH. destruct (existsb _ es); auto. rewrite <- !app_assoc. reflexivity.
    - rewrite R. reflexivity. }
  rewrite G. reflexivity.
Qed.
(** cmr_metadata_json: every link of the relation, in the order of the response *)
Definition known_meta (ep rel : string) : Prop := known ep rel \/ (ep = "documentation"%string /\ rel = "http://esipfed.org/ns/fedsearch/1.1/documentation#"%string).
Theorem C62_metadata : forall es ep rel, known_meta ep rel ->
  cmr_metadata_json (Some es) ep = Ok (map snd (filter (fun l => String.eqb (fst l) rel) (flat_map e_links es))).
Proof.
  intros es ep rel K. assert (R : relation_meta ep = Ok rel).
  { destruct K as [K|[-> ->]]; [|reflexivity]. pose proof K as K'. apply known_rel in K. unfold relation_meta. destruct K' as [[-> _]|[-> _]]; exact K. }
  assert (A : forall l, all_links ep l = Ok (map snd (filter (fun l => String.eqb (fst l) rel) l))).
  { induction l as [|[r h] l IH]; [reflexivity|]. cbn [all_links filter fst]. rewrite R. cbn [bind]. rewrite IH. cbn [bind]. destruct (String.eqb r rel); reflexivity. }
  cbn [cmr_metadata_json]. assert (M : mapM (fun e => all_links ep (e_links e)) es = Ok (map (fun e => map snd (filter (fun l => String.eqb (fst l) rel) (e_links e))) es)).
  { induction es as [|e es IH]; [reflexivity|]. cbn [mapM]. rewrite A. cbn [bind]. rewrite IH. reflexivity. }
  rewrite M. cbn [bind]. f_equal. induction es as [|e es IH]; [reflexivity|]. cbn. rewrite filter_app, map_app. f_equal. apply IH.
  clear - A. induction es as [|e es IH]; [reflexivity|]. cbn [mapM]. rewrite A. cbn [bind]. rewrite IH. reflexivity.
Qed.
Example C62_nonvacuous : exists es, es <> [] /\ Forall (has_link "http://esipfed.org/ns/fedsearch/1.1/s3#") es /\ known "s3" "http://esipfed.org/ns/fedsearch/1.1/s3#".
Proof.
  exists [mkentry "b" None [("x", "y"); ("http://esipfed.org/ns/fedsearch/1.1/s3#", "s3://b")]%string]. split; [discriminate|]. split; [|right; auto].
  constructor; [|constructor]. exists "s3://b"%string. right. left. reflexivity.
Qed.

(** ** C74 *)
(** the words of a text: runs of non-space characters separated by spaces *)
Inductive words (ws : ascii -> bool) : text -> list text -> Prop :=
| words_nil w : forallb ws w = true -> words ws w []
| words_last w t : forallb ws w = true -> t <> [] -> forallb (fun c => negb (ws c)) t = true -> words ws (w ++ t) [t]
| words_cons w t c r ts : forallb ws w = true -> t <> [] -> forallb (fun c => negb (ws c)) t = true -> ws c = true ->
    words ws (c :: r) ts -> words ws (w ++ t ++ c :: r) (t :: ts).
Lemma tokens_ws ws w r : forallb ws w = true -> tokens ws [] (w ++ r) = tokens ws [] r.
Proof. induction w as [|c w IH]; auto. cbn. intros H. apply andb_prop in H. destruct H as [-> H]. auto. Qed.
Lemma tokens_word ws t : forallb (fun c => negb (ws c)) t = true -> forall cur r, tokens ws cur (t ++ r) = tokens ws (rev t ++ cur) r.
Proof.
  induction t as [|c t IH]; intros H cur r; auto. cbn [app forallb tokens rev] in *. apply andb_prop in H. destruct H as [H1 H2]. destruct (ws c); [discriminate|].
  rewrite IH by auto. rewrite <- app_assoc. reflexivity.
Qed.
Lemma rev_ne (t : text) : t <> [] -> exists a b, rev t = a :: b.
Proof. intros N. destruct (rev t) eqn:E; eauto. apply (f_equal (@rev ascii)) in E. rewrite rev_involutive in E. contradiction. Qed.
Lemma words_tokens ws s ts : words ws s ts -> tokens ws [] s = ts.
Proof.
  induction 1 as [w W|w t W N T|w t c r ts W N T C H IH].
  - rewrite <- (app_nil_r w). rewrite tokens_ws by auto. reflexivity.
  - rewrite tokens_ws by auto. rewrite <- (app_nil_r t) at 1. rewrite tokens_word by auto. rewrite app_nil_r. cbn. destruct (rev_ne t N) as (a & b & E). rewrite E, <- E, rev_involutive. reflexivity.
  - rewrite tokens_ws by auto. rewrite tokens_word by auto. rewrite app_nil_r. cbn [tokens] in *. rewrite C in *. destruct (rev_ne t N) as (a & b & E). rewrite E, <- E, rev_involutive, IH. reflexivity.
Qed.
Lemma words_exist ws s : exists ts, words ws s ts.
Proof.
  assert (G : forall n s, (List.length s <= n)%nat -> exists ts, words ws s ts).
  { induction n as [|n IH]; intros s0 L. { destruct s0; [|cbn in L; lia]. exists []. constructor. reflexivity. }
    assert (SP : exists w r : text, s0 = w ++ r /\ forallb ws w = true /\ (r = [] \/ exists c q, r = c :: q /\ ws c = false)).
    { clear. induction s0 as [|c s0 (w & r & E & W & R)]; [exists [], []; auto|]. destruct (ws c) eqn:Q.
      - exists (c :: w), r. subst s0. cbn. rewrite Q. auto.
      - exists [], (c :: s0). repeat split; auto. right. eauto. }
    destruct SP as (w & r & -> & W & [->|(c & q & -> & Q)]); [exists []; constructor; rewrite app_nil_r; auto|].
    assert (SQ : exists t r : text, q = t ++ r /\ forallb (fun c => negb (ws c)) t = true /\ (r = [] \/ exists c q, r = c :: q /\ ws c = true)).
    { clear. induction q as [|c q (t & r & E & W & R)]; [exists [], []; auto|]. destruct (ws c) eqn:Q.
      - exists [], (c :: q). repeat split; auto. right. eauto.
      - exists (c :: t), r. subst q. cbn. rewrite Q. auto. }
    destruct SQ as (t & r & -> & T & [->|(d & p & -> & P)]).
    - exists [c :: t]. rewrite app_nil_r. constructor; auto; [discriminate|]. cbn. rewrite Q. exact T.
    - rewrite app_length in L. cbn [List.length] in L. rewrite app_length in L. cbn [List.length] in L.
      destruct (IH (d :: p)) as [ts H]; [cbn; lia|]. exists ((c :: t) :: ts). rewrite app_comm_cons. constructor; auto; [discriminate|]. cbn. rewrite Q. exact T. }
  apply (G (List.length s)). lia.
Qed.
Lemma words_nonspace ws s ts : words ws s ts -> Forall (fun t => t <> [] /\ forallb (fun c => negb (ws c)) t = true) ts.
Proof. induction 1; constructor; auto. Qed.
Lemma filter_words (ws : ascii -> bool) (ts : list text) : Forall (fun t => t <> [] /\ forallb (fun c => negb (ws c)) t = true) ts -> filter (fun a => negb (forallb ws a)) ts = ts.
Proof.
  induction 1 as [|t ts [N T] F IH]; auto. cbn. destruct t as [|c t]; [congruence|]. cbn in *. destruct (ws c); [discriminate|]. cbn. congruence.
Qed.
Lemma strip_spec l body rest : l = body ++ rest -> ~ In hash body -> (rest = [] \/ exists r, rest = hash :: r) -> strip_comment l = body.
Proof.
  intros -> NI R. induction body as [|c b IH]; cbn [app strip_comment].
  - destruct R as [->|[r ->]]; reflexivity.
  - destruct (Ascii.eqb c hash) eqn:E; [apply Ascii.eqb_eq in E; exfalso; apply NI; left; auto|]. f_equal. apply IH. intros H. apply NI. right. auto.
Qed.
(** the arguments of a line are the words before the first #, for any notion of white space *)
Theorem C74_arguments : forall ws line body rest args, line = body ++ rest -> ~ In hash body -> (rest = [] \/ exists r, rest = hash :: r) ->
  (arg_line ws line = args <-> words ws body args).
Proof.
  intros ws line body rest args E NI R. unfold arg_line. rewrite (strip_spec line body rest) by auto. split.
  - intros <-. destruct (words_exist ws body) as [ts H]. rewrite (words_tokens _ _ _ H). rewrite (filter_words ws ts) by (eapply words_nonspace; eauto). exact H.
  - intros H. rewrite (words_tokens _ _ _ H). apply filter_words. eapply words_nonspace; eauto.
Qed.
(** every line has such a body, so the arguments are always defined; each is non-empty and free of white space and of # *)
Theorem C74_clean : forall ws line, Forall (fun a => a <> [] /\ (forall c, In c a -> ws c = false /\ c <> hash)) (arg_line ws line).
Proof.
  intros ws line. assert (D : exists body rest, line = body ++ rest /\ ~ In hash body /\ (rest = [] \/ exists r, rest = hash :: r)).
  { induction line as [|c l (b & r & E & N & R)]; [exists [], []; cbn; auto|]. destruct (Ascii.eqb c hash) eqn:Q.
    - apply Ascii.eqb_eq in Q. subst c. exists [], (hash :: l). split; [reflexivity|]. split; [intros []|]. right. eauto.
    - apply Ascii.eqb_neq in Q. exists (c :: b), r. subst l. split; auto. split; auto. intros [H|H]; auto. }
  destruct D as (body & rest & E & N & R). pose proof (proj1 (C74_arguments ws line body rest _ E N R) eq_refl) as W.
  pose proof (words_nonspace _ _ _ W) as F.
  assert (SUB : forall s ts, words ws s ts -> forall t c, In t ts -> In c t -> In c s).
  { induction 1 as [w|w t|w t c r ts A B C D H IH]; intros u d Hu Hd; cbn in Hu.
    - contradiction.
    - destruct Hu as [<-|[]]. apply in_or_app. auto.
    - destruct Hu as [<-|Hu]; apply in_or_app; right; apply in_or_app; [left; auto|right; eauto]. }
  rewrite Forall_forall in *. intros a Ha. destruct (F a Ha) as [F1 F2]. split; auto. intros c Hc. rewrite forallb_forall in F2.
  split; [specialize (F2 c Hc); destruct (ws c); auto; discriminate|]. intros ->. apply N. eapply SUB; eauto.
Qed.
Example C74_nonvacuous : arg_line (fun c => Ascii.eqb c " "%char) (chars "  --lmax 60  --love 0 # comment --no") = map chars ["--lmax"; "60"; "--love"; "0"]%string.
Proof. reflexivity. Qed.

(** ** C75 *)
(** CMR wildcards: ? one character, * any characters *)
Inductive glob : text -> text -> Prop :=
| glob_nil : glob [] []
| glob_star_end p s : glob p s -> glob ("*"%char :: p) s
| glob_star p s c : glob ("*"%char :: p) s -> glob ("*"%char :: p) (c :: s)
| glob_any p s c : glob p s -> glob ("?"%char :: p) (c :: s)
| glob_char p s c : c <> "*"%char -> c <> "?"%char -> glob p s -> glob (c :: p) (c :: s).
Definition plain (s : text) : Prop := ~ In "*"%char s /\ ~ In "?"%char s.
Lemma glob_plain q p s : plain q -> (glob (q ++ p) s <-> exists r, s = q ++ r /\ glob p r).
Proof.
  revert s. induction q as [|c q IH]; intros s [N1 N2]; cbn [app]. { split; [eauto|intros (r & -> & H); auto]. }
  assert (PQ : plain q) by (split; intros H; [apply N1|apply N2]; right; auto).
  assert (C1 : c <> "*"%char) by (intros ->; apply N1; left; auto). assert (C2 : c <> "?"%char) by (intros ->; apply N2; left; auto).
  split.
  - intros H. inversion H; subst; try congruence. match goal with K : glob (q ++ p) ?s0 |- _ => apply (IH s0 PQ) in K; destruct K as (r & -> & G) end. eauto.
  - intros (r & -> & G). cbn. constructor; auto. apply IH; eauto.
Qed.
Lemma glob_any_n n p s : glob (repeat "?"%char n ++ p) s <-> exists a r, s = a ++ r /\ List.length a = n /\ glob p r.
Proof.
  revert s. induction n as [|n IH]; intros s; cbn [repeat app].
  - split; [intros H; exists [], s; auto|]. intros (a & r & -> & L & H). destruct a; [auto|discriminate].
  - split.
    + intros H. inversion H; subst; try congruence. match goal with K : glob _ _ |- _ => apply IH in K; destruct K as (a & r & -> & L & G) end. eexists (_ :: a), r. cbn. split; [reflexivity|]. auto.
    + intros (a & r & -> & L & G). destruct a as [|c a]; [discriminate|]. cbn. constructor. apply IH. exists a, r. auto.
Qed.
Lemma glob_star_all s : glob ["*"%char] s.
Proof. induction s; [apply glob_star_end; constructor|apply glob_star; auto]. Qed.
Lemma chars_app a b : chars (a ++ b)%string = chars a ++ chars b.
Proof. unfold chars. induction a; cbn; congruence. Qed.
(** a Level-2 granule name: PROD-2_date-date_ccc_ppppp_SSSS_rrrVV... *)
Definition l2_name (product solution version : string) (name : text) : Prop :=
  exists a b c d e r, List.length a = 7%nat /\ List.length b = 7%nat /\ List.length c = 4%nat /\ List.length d = 5%nat /\ List.length e = 3%nat /\
  name = chars product ++ chars "-2_" ++ a ++ chars "-" ++ b ++ chars "_" ++ c ++ chars "_" ++ d ++ chars "_" ++ chars solution ++ chars "_" ++ e ++ chars version ++ r.
Lemma l2_glob product solution version name : plain (chars product) -> plain (chars solution) -> plain (chars version) ->
  (glob (chars (product ++ "-2_???????-???????_????_?????_" ++ solution ++ "_???" ++ version ++ "*")%string) name <-> l2_name product solution version name).
Proof.
  intros P1 P2 P3. rewrite !chars_app.
  replace (chars "-2_???????-???????_????_?????_") with (chars "-2_" ++ repeat "?"%char 7 ++ chars "-" ++ repeat "?"%char 7 ++ chars "_" ++ repeat "?"%char 4 ++ chars "_" ++ repeat "?"%char 5 ++ chars "_") by reflexivity.
  replace (chars "_???") with (chars "_" ++ repeat "?"%char 3) by reflexivity. rewrite <- !app_assoc.
  assert (L1 : plain (chars "-2_")) by (split; cbn; intuition discriminate).
  assert (L2 : plain (chars "-")) by (split; cbn; intuition discriminate).
  assert (L3 : plain (chars "_")) by (split; cbn; intuition discriminate).
  unfold l2_name. split.
  - intros H. apply glob_plain in H as (? & -> & H); auto. apply glob_plain in H as (? & -> & H); auto. apply glob_any_n in H as (a & ? & -> & La & H).
    apply glob_plain in H as (? & -> & H); auto. apply glob_any_n in H as (b & ? & -> & Lb & H).
    apply glob_plain in H as (? & -> & H); auto. apply glob_any_n in H as (c & ? & -> & Lc & H).
    apply glob_plain in H as (? & -> & H); auto. apply glob_any_n in H as (d & ? & -> & Ld & H).
    apply glob_plain in H as (? & -> & H); auto. apply glob_plain in H as (? & -> & H); auto. apply glob_plain in H as (? & -> & H); auto.
    apply glob_any_n in H as (e & ? & -> & Le & H). apply glob_plain in H as (r & -> & H); auto.
    exists a, b, c, d, e, r. repeat split; auto.
  - intros (a & b & c & d & e & r & La & Lb & Lc & Ld & Le & ->).
    apply glob_plain; auto. eexists. split; [reflexivity|]. apply glob_plain; auto. eexists. split; [reflexivity|].
    apply glob_any_n. eexists a, _. split; [reflexivity|]. split; auto.
    apply glob_plain; auto. eexists. split; [reflexivity|]. apply glob_any_n. eexists b, _. split; [reflexivity|]. split; auto.
    apply glob_plain; auto. eexists. split; [reflexivity|]. apply glob_any_n. eexists c, _. split; [reflexivity|]. split; auto.
    apply glob_plain; auto. eexists. split; [reflexivity|]. apply glob_any_n. eexists d, _. split; [reflexivity|]. split; auto.
    apply glob_plain; auto. eexists. split; [reflexivity|]. apply glob_plain; auto. eexists. split; [reflexivity|]. apply glob_plain; auto. eexists. split; [reflexivity|].
    apply glob_any_n. eexists e, _. split; [reflexivity|]. split; auto. apply glob_plain; auto. eexists. split; [reflexivity|]. apply glob_star_all.
Qed.
(** the pattern selects exactly the granules of the product, of the solution (GSM) or of solution BC01 (other products), and of the version *)
Theorem C75_granules : forall product solution version name, plain (chars product) -> plain (chars solution) -> plain (chars version) ->
  (glob (chars (cmr_readable_granules product "L2" solution version)) name <->
   l2_name product (if String.eqb product "GSM" then solution else "BC01"%string) version name).
Proof.
  intros product solution version name P1 P2 P3. unfold cmr_readable_granules.
  change (String.eqb "L2" "L1B") with false. change (String.eqb "L2" "L1A") with false. change (String.eqb "L2" "L2") with true. cbn [andb orb].
  destruct (String.eqb product "GSM") eqn:E.
  - apply String.eqb_eq in E. subst product. apply l2_glob; auto.
  - apply (l2_glob product "BC01" version name); auto. split; cbn; intuition discriminate.
Qed.
(** the mission / level / centre / release combinations that exist *)
Definition available (mission level center release : string) : Prop :=
  (mission = "grace" /\ level = "L1B" /\ center = "GFZ" /\ release = "RL06")%string \/
  (mission = "grace" /\ level = "L1B" /\ center = "JPL" /\ (release = "RL02" \/ release = "RL03"))%string \/
  (mission = "grace-fo" /\ (level = "L1A" \/ level = "L1B") /\ center = "JPL" /\ release = "RL04")%string \/
  ((mission = "grace" \/ mission = "grace-fo") /\ level = "L2" /\ (center = "CSR" \/ center = "GFZ" \/ center = "JPL") /\ release = "RL06")%string.
Theorem C75_available : forall mission center release level version products,
  (exists names, cmr_product_shortname mission center release level version products = Ok names) <-> available mission level center release.
Proof.
  intros m c r l v ps. unfold cmr_product_shortname. split.
  - intros [names H]. destruct (find _ _) as [[[[[m' l'] c'] r'] ns]|] eqn:F; [|discriminate]. apply find_some in F. destruct F as [I B].
    apply andb_prop in B. destruct B as [B B4]. apply andb_prop in B. destruct B as [B B3]. apply andb_prop in B. destruct B as [B1 B2].
    apply String.eqb_eq in B1, B2, B3, B4. subst. unfold available. clear H.
    repeat (destruct I as [I|I]; [injection I as <- <- <- <- <-; tauto|]). destruct I.
  - intros A. unfold available in A.
    destruct A as [(-> & -> & -> & ->)|[(-> & -> & -> & [->| ->])|[(-> & [->| ->] & -> & ->)|([->| ->] & -> & [->|[->| ->]] & ->)]]]; cbn; eauto.
Qed.
(** GRACE Level-2: one short name per requested product, CSR has no GAA and GAB *)
Theorem C75_grace_level2 : forall center version products, In center ["CSR"; "GFZ"; "JPL"]%string ->
  exists names, cmr_product_shortname "grace" center "RL06" "L2" version products = Ok names /\
  forall n, In n names <-> exists p, In p products /\ ~ (center = "CSR" /\ (p = "GAA" \/ p = "GAB"))%string /\ n = ("GRACE_" ++ p ++ "_L2_GRAV_" ++ center ++ "_RL06")%string.
Proof.
  intros center v ps I. exists (l2_grace center ps). split.
  - destruct I as [<-|[<-|[<-|[]]]]; reflexivity.
  - intros n. unfold l2_grace. rewrite in_map_iff. split.
    + intros (p & <- & H). apply filter_In in H. destruct H as [H1 H2]. exists p. split; auto. split; auto.
      intros [-> [->| ->]]; discriminate.
    + intros (p & H1 & H2 & ->). exists p. split; auto. apply filter_In. split; auto.
      destruct (String.eqb center "CSR") eqn:E; auto. apply String.eqb_eq in E. destruct (String.eqb p "GAA") eqn:F; [apply String.eqb_eq in F; tauto|].
      destruct (String.eqb p "GAB") eqn:G; [apply String.eqb_eq in G; tauto|]. reflexivity.
Qed.
Example C75_nonvacuous : available "grace-fo" "L2" "GFZ" "RL06" /\ l2_name "GSM" "BA01" "0" (chars "GSM-2_2002095-2002120_GRAC_UTCSR_BA01_0600").
Proof.
  split; [unfold available; tauto|].
  exists (chars "2002095"), (chars "2002120"), (chars "GRAC"), (chars "UTCSR"), (chars "060"), []. repeat split; reflexivity.
Qed.
