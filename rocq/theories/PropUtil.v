(** C59 url_split, C60 create_unique_file, C61 even/ceil, C62 CMR responses, C74 argument lines, C75 CMR names. *)
From Coq Require Import Reals Lra Ascii String DecimalString DecimalNat Permutation.
From Verif Require Import Base UtilModel.
Close Scope Z_scope.
Open Scope list_scope.
Notation text := (list ascii).

(** ** C59 *)
Definition no_slash (c : text) : Prop := ~ In slash c.
Definition slashes (k : nat) : text := repeat slash k.
(** components each preceded by a run of at least one slash *)
Fixpoint tail_of (rest : list (nat * text)) : text :=
  match rest with [] => [] | (k, c) :: r => slashes (S k) ++ c ++ tail_of r end.
(** all components but the last are not empty *)
Fixpoint inner_nonempty (cs : list text) : Prop :=
  match cs with [] => True | [c] => True | c :: r => c <> [] /\ inner_nonempty r end.
(** a first component: plain, or protocol + slashes + host *)
Definition host_like (f : text) : Prop := exists p k h, In p protocols /\ no_slash h /\ f = p ++ slashes (S k) ++ h.
Definition starts_with_two_slashes (s : text) : Prop := exists r, s = slash :: slash :: r.
(** s is the components joined by runs of slashes *)
Definition joined (s : text) (comps : list text) : Prop :=
  exists lead f rest, comps = f :: map snd rest /\ s = lead ++ f ++ tail_of rest /\ (lead = [] \/ lead = [slash]) /\
   Forall no_slash (map snd rest) /\ inner_nonempty comps /\
   ((no_slash f /\ (rest <> [] -> lead = [] -> ~ In f protocols)) \/ (host_like f /\ lead = [])).

Lemma is_slash_spec c : is_slash c = true <-> c = slash.
Proof. unfold is_slash. apply Ascii.eqb_eq. Qed.
Lemma cut_app h t : no_slash t -> (h = [] \/ exists r, h = r ++ [slash]) -> cut (h ++ t) = (h, t).
Proof.
  intros NT. assert (B : cut t = ([], t)).
  { induction t as [|c t IH]; [reflexivity|]. cbn. rewrite IH by (intros H; apply NT; right; auto).
    destruct (is_slash c) eqn:E; [|reflexivity]. apply is_slash_spec in E. exfalso. apply NT. left. auto. }
  intros [->|[r ->]]; [exact B|]. rewrite <- app_assoc. cbn [app]. induction r as [|c r IH]; cbn [app cut].
  - rewrite B. assert (E : is_slash slash = true) by reflexivity. rewrite E. reflexivity.
  - rewrite IH. destruct (r ++ [slash]) eqn:E; [destruct r; discriminate|]. reflexivity.
Qed.
Lemma cut_spec s : exists h t, cut s = (h, t) /\ s = h ++ t /\ no_slash t /\ (h = [] \/ exists r, h = r ++ [slash]).
Proof.
  induction s as [|c s (h & t & E & Es & NT & H)].
  - exists [], []. repeat split; auto. intros [].
  - cbn. rewrite E. destruct h as [|c' h].
    + destruct (is_slash c) eqn:Q.
      * apply is_slash_spec in Q. subst. exists [slash], t. repeat split; auto. right. exists []. reflexivity.
      * exists [], (c :: t). cbn in Es. subst s. repeat split; auto. intros [P|P]; [|contradiction]. subst c. cbn in Q. discriminate.
    + exists (c :: c' :: h), t. cbn [app]. rewrite Es. repeat split; auto. right. destruct H as [H|[r H]]; [discriminate|]. exists (c :: r). cbn. rewrite H. reflexivity.
Qed.
Lemma drop_repeat k l : drop_slashes (slashes k ++ l) = drop_slashes l.
Proof. induction k; cbn; auto. Qed.
Lemma rev_slashes k : rev (slashes k) = slashes k.
Proof.
  induction k; [reflexivity|]. change (slashes (S k)) with (slash :: slashes k). cbn [rev]. rewrite IHk. clear. induction k; [reflexivity|].
  change (slashes (S k)) with (slash :: slashes k). cbn [app]. f_equal. exact IHk.
Qed.
Definition no_trailing (h : text) : Prop := h <> [] /\ forall r, h <> r ++ [slash].
Lemma rstrip_app h k : no_trailing h -> rstrip (h ++ slashes k) = h.
Proof.
  intros [N T]. unfold rstrip. rewrite rev_app_distr, rev_slashes, drop_repeat.
  destruct (rev h) as [|c r] eqn:E. { apply (f_equal (@rev ascii)) in E. rewrite rev_involutive in E. cbn in E. contradiction. }
  cbn [drop_slashes]. destruct (is_slash c) eqn:Q.
  - apply is_slash_spec in Q. subst. exfalso. apply (T (rev r)). rewrite <- (rev_involutive h), E. reflexivity.
  - rewrite <- E, rev_involutive. reflexivity.
Qed.
Lemma all_slashes l : forallb is_slash l = true <-> l = slashes (List.length l).
Proof.
  induction l as [|c l IH]; cbn; [tauto|]. rewrite andb_true_iff, IH, is_slash_spec. split.
  - intros [-> E]. f_equal. exact E.
  - intros E. injection E as E1 E2. auto.
Qed.
Lemma not_all h k : no_trailing h -> forallb is_slash (h ++ slashes k) = false.
Proof.
  intros [N T]. rewrite forallb_app. destruct (forallb is_slash h) eqn:E; [|reflexivity]. exfalso. apply all_slashes in E.
  destruct h as [|c h]; [contradiction|]. set (n := List.length h). apply (T (slashes n)). rewrite E. cbn [List.length slashes repeat]. fold n.
  clear. induction n; cbn; [reflexivity|]. f_equal. exact IHn.
Qed.
Lemma split_app h k t : no_trailing h -> no_slash t -> path_split (h ++ slashes (S k) ++ t) = (h, t).
Proof.
  intros NT Nt. unfold path_split. rewrite app_assoc.
  rewrite (cut_app (h ++ slashes (S k)) t Nt).
  - rewrite not_all by auto. rewrite rstrip_app by auto. reflexivity.
  - right. exists (h ++ slashes k). rewrite <- app_assoc. f_equal. clear. induction k; cbn; [reflexivity|]. f_equal. exact IHk.
Qed.
Lemma str_eqb_ok a b : str_eqb a b = true <-> a = b.
Proof. unfold str_eqb. destruct (list_eq_dec ascii_dec a b); split; intros; auto; discriminate. Qed.
Lemma existsb_in h l : existsb (str_eqb h) l = true <-> In h l.
Proof.
  rewrite existsb_exists. split.
  - intros (x & Hx & E). apply str_eqb_ok in E. subst. exact Hx.
  - intros H. exists h. split; auto. apply str_eqb_ok. reflexivity.
Qed.
Lemma proto_props p : In p protocols -> no_trailing p /\ no_slash p /\ p <> [slash].
Proof.
  unfold protocols. cbn. intros [<-|[<-|[<-|[<-|[]]]]]; (split; [split; [discriminate|]|split; [|discriminate]]);
    try (intros r H; apply (f_equal (@rev ascii)) in H; rewrite rev_app_distr in H; cbn in H; discriminate);
    unfold no_slash; cbn; intros H; repeat destruct H as [H|H]; discriminate || contradiction.
Qed.
Lemma no_slash_trailing h r : no_slash h -> h <> r ++ [slash].
Proof. intros N E. apply N. rewrite E. apply in_or_app. right. left. auto. Qed.

(** the recursion ends, and the components rejoined give the url *)
Theorem C59_components : forall s depth, ~ starts_with_two_slashes s -> (List.length s < depth)%nat ->
  exists comps, url_split depth s = Ok comps /\ joined s comps.
Proof.
  intros s depth. revert s. induction depth as [|n IH]; intros s NS L; [lia|]. cbn [url_split]. unfold path_split.
  destruct (cut_spec s) as (h & t & E & Es & NT & H). rewrite E.
  destruct H as [->|[r Hr]].
  - (* no slash at all *)
    cbn [forallb app] in *. assert (P : existsb (str_eqb []) protocols = false) by reflexivity. rewrite P. cbn [existsb].
    assert (Q : str_eqb [] [] = true) by (apply str_eqb_ok; reflexivity). rewrite Q. cbn [orb]. exists [t]. split; [reflexivity|]. subst s.
    exists [], t, []. cbn [map tail_of app inner_nonempty]. rewrite app_nil_r. repeat split; auto; left; split; auto; congruence.
  - destruct (forallb is_slash h) eqn:AS.
    + apply all_slashes in AS. assert (LH : List.length h = 1%nat).
      { destruct h as [|a [|b h]]; [destruct r; discriminate|reflexivity|]. exfalso. apply NS. cbn in AS. exists (h ++ t). rewrite Es. injection AS as -> -> _. reflexivity. }
      assert (h = [slash]). { rewrite AS, LH. reflexivity. } clear Hr AS. subst h.
      assert (P : existsb (str_eqb [slash]) protocols = false) by reflexivity. rewrite P.
      assert (Q : existsb (str_eqb [slash]) [[]; [slash]] = true) by (apply existsb_in; cbn; auto). rewrite Q.
      exists [t]. split; [reflexivity|]. exists [slash], t, []. cbn [map tail_of inner_nonempty]. rewrite app_nil_r. repeat split; auto; left; split; auto; congruence.
    + (* head with trailing slashes removed *)
      set (h' := rstrip h).
      assert (D : exists k, h = h' ++ slashes (S k) /\ no_trailing h').
      { unfold h', rstrip. assert (G : forall l, exists k, l = slashes k ++ drop_slashes l /\ (drop_slashes l = [] \/ exists c q, drop_slashes l = c :: q /\ c <> slash)).
        { induction l as [|c l (k & E1 & E2)]; [exists 0%nat; cbn; auto|]. cbn [drop_slashes]. destruct (is_slash c) eqn:Q.
          - apply is_slash_spec in Q. subst c. exists (S k). split; [cbn; f_equal; exact E1|exact E2].
          - exists 0%nat. split; [reflexivity|]. right. exists c, l. split; auto. intros ->. discriminate. }
        destruct (G (rev h)) as (k & E1 & E2).
        assert (EH : h = rev (drop_slashes (rev h)) ++ slashes k). { rewrite <- (rev_involutive h) at 1. rewrite E1 at 1. rewrite rev_app_distr, rev_slashes. reflexivity. }
        assert (NTR : no_trailing (rev (drop_slashes (rev h)))).
        { destruct E2 as [E2|(c & q & E2 & Nc)].
          - exfalso. rewrite E2 in EH. cbn in EH. rewrite EH in AS. assert (forallb is_slash (slashes k) = true) by (clear; induction k; cbn; auto). congruence.
          - rewrite E2. cbn [rev]. split; [destruct (rev q); discriminate|]. intros w Hw. apply app_inj_tail in Hw. destruct Hw. contradiction. }
        destruct k as [|k]; [|exists k; split; auto].
        exfalso. cbn in EH. rewrite app_nil_r in EH. destruct NTR as [_ T]. apply (T r). rewrite <- EH. exact Hr. }
      destruct D as (k & EH & NTR).
      assert (EsS : s = h' ++ slashes (S k) ++ t) by (rewrite Es, EH, <- app_assoc; reflexivity).
      destruct (existsb (str_eqb h') protocols) eqn:P.
      * apply existsb_in in P. exists [s]. split; [reflexivity|]. exists [], s, []. cbn [map snd tail_of app]. rewrite app_nil_r. split; [reflexivity|]. split; [auto|]. split; [auto|]. split; [constructor|]. split; [exact I|].
        right. split; auto. exists h', k, t. auto.
      * assert (Q : existsb (str_eqb h') [[]; [slash]] = false).
        { destruct (existsb (str_eqb h') [[]; [slash]]) eqn:Q; auto. apply existsb_in in Q. destruct NTR as [N1 N2]. destruct Q as [Q|[Q|[]]]; [congruence|].
          exfalso. apply (N2 []). rewrite <- Q. reflexivity. }
        rewrite Q. destruct (IH h') as (comps & EC & J).
        { intros [w Hw]. apply NS. rewrite EsS, Hw. eexists. reflexivity. }
        { apply (f_equal (@List.length ascii)) in EsS. rewrite !app_length in EsS. cbn in EsS. lia. }
        rewrite EC. cbn [bind]. exists (comps ++ [t]). split; [reflexivity|].
        destruct J as (lead & f & rest & E1 & E2 & E3 & E4 & E5 & E6). exists lead, f, (rest ++ [(k, t)]).
        rewrite map_app. cbn [map snd]. split; [rewrite E1; reflexivity|].
        assert (TA : tail_of (rest ++ [(k, t)]) = tail_of rest ++ slashes (S k) ++ t).
        { clear. induction rest as [|[a b] rest IHr]; [cbn; rewrite !app_nil_r; reflexivity|]. cbn [tail_of app]. rewrite IHr, <- !app_assoc. reflexivity. }
        rewrite TA. split; [rewrite EsS, E2, <- !app_assoc; reflexivity|]. split; [exact E3|].
        split; [apply Forall_app; split; [exact E4|constructor; auto]|].
        assert (LN : forall w, comps = w ++ [[]] -> False).
        { (* the last component is not empty because h' does not end with a slash *)
          intros w Hw. rewrite Hw in E1. destruct NTR as [N1 N2].
          destruct rest as [|x0 rest0] using rev_ind.
          - cbn in E1. destruct w as [|? [|? ?]]; try discriminate. injection E1 as <-. cbn in E2. rewrite app_nil_r in E2.
            destruct E3 as [-> | ->]; [congruence|]. apply (N2 []). exact E2.
          - clear IHrest0. destruct x0 as [a b]. rewrite map_app in E1. cbn [map snd] in E1. rewrite app_comm_cons in E1. apply app_inj_tail in E1. destruct E1 as [_ <-].
            assert (TB : tail_of (rest0 ++ [(a, [])]) = tail_of rest0 ++ slashes (S a)).
            { clear. induction rest0 as [|[a' b] rest0 IHr]; [cbn; rewrite ?app_nil_r; reflexivity|]. cbn [tail_of app]. rewrite IHr, <- !app_assoc. reflexivity. }
            rewrite TB in E2. apply (N2 (lead ++ f ++ tail_of rest0 ++ slashes a)). rewrite E2, <- !app_assoc. do 3 f_equal. clear. induction a; cbn; [reflexivity|]. f_equal. exact IHa. }
        split.
        { assert (G : forall cs, inner_nonempty cs -> (forall w, cs <> w ++ [[]]) -> inner_nonempty (cs ++ [t])).
          { induction cs as [|c cs IHc]; intros I N; [exact Logic.I|]. destruct cs as [|c' cs].
            - cbn. split; auto. intros ->. apply (N []). reflexivity.
            - cbn [app inner_nonempty] in *. destruct I as [I1 I2]. split; auto. apply IHc; auto. intros w Hw. apply (N (c :: w)). rewrite Hw. reflexivity. }
          apply G; [assumption|]. intros w Hw. exact (LN w Hw). }
        destruct E6 as [[F1 F2]|[F1 F2]]; [left|right; auto]. split; auto. intros _ Hl.
        destruct rest as [|x rest]; [|apply F2; auto; discriminate].
        subst lead. cbn in E2. rewrite app_nil_r in E2. rewrite <- E2. intros HI. apply existsb_in in HI. congruence.
Qed.
(** rejoining determines the result: an url built from a protocol, a host and non-empty components is split back *)
Theorem C59_join : forall p k host rest depth, In p protocols -> no_slash host -> host <> [] ->
  Forall (fun c => no_slash (snd c) /\ snd c <> []) rest -> (List.length rest < depth)%nat ->
  url_split depth (p ++ slashes (S k) ++ host ++ tail_of rest) = Ok ((p ++ slashes (S k) ++ host) :: map snd rest).
Proof.
  intros p k host rest depth HP NH NE. revert depth. induction rest as [|[a c] rest IH] using rev_ind; intros depth F L.
  - cbn [tail_of map]. rewrite app_nil_r. destruct depth as [|n]; [cbn in L; lia|]. cbn [url_split].
    destruct (proto_props p HP) as (PT & PN & _). rewrite (split_app p k host PT NH). rewrite (proj2 (existsb_in p protocols) HP). reflexivity.
  - apply Forall_app in F. destruct F as [F1 F2]. apply Forall_inv in F2. cbn [snd] in F2. destruct F2 as [F2 F3].
    rewrite app_length in L. cbn [List.length] in L. destruct depth as [|n]; [lia|].
    assert (TA : tail_of (rest ++ [(a, c)]) = tail_of rest ++ slashes (S a) ++ c).
    { clear. induction rest as [|[x y] rest IHr]; [cbn; rewrite !app_nil_r; reflexivity|]. cbn [tail_of app]. rewrite IHr, <- !app_assoc. reflexivity. }
    rewrite TA. set (s := p ++ slashes (S k) ++ host ++ tail_of rest).
    replace (p ++ slashes (S k) ++ host ++ tail_of rest ++ slashes (S a) ++ c) with (s ++ slashes (S a) ++ c) by (unfold s; rewrite <- !app_assoc; reflexivity).
    assert (IS : In slash s). { unfold s. apply in_or_app. right. cbn. left. auto. }
    assert (NTR : no_trailing s).
    { split. { intros Q. rewrite Q in IS. exact IS. }
      intros r Hr. unfold s in Hr.
      assert (LAST : exists b x, p ++ slashes (S k) ++ host ++ tail_of rest = b ++ x /\ x <> [] /\ no_slash x).
      { destruct rest as [|[u v] rest0] using rev_ind.
        - exists (p ++ slashes (S k)), host. cbn [tail_of]. rewrite app_nil_r, <- app_assoc. auto.
        - clear IHrest0. apply Forall_app in F1. destruct F1 as [_ F1]. apply Forall_inv in F1. cbn [snd] in F1. destruct F1 as [G1 G2].
          exists (p ++ slashes (S k) ++ host ++ tail_of rest0 ++ slashes (S u)), v. split; auto.
          assert (TB : tail_of (rest0 ++ [(u, v)]) = tail_of rest0 ++ slashes (S u) ++ v).
          { clear. induction rest0 as [|[x y] rest0 IHr]; [cbn; rewrite !app_nil_r; reflexivity|]. cbn [tail_of app]. rewrite IHr, <- !app_assoc. reflexivity. }
          rewrite TB, <- !app_assoc. reflexivity. }
      destruct LAST as (b & x & E1 & E2 & E3). rewrite E1 in Hr. destruct x as [|z x] using rev_ind; [congruence|].
      rewrite app_assoc in Hr. apply app_inj_tail in Hr. destruct Hr as [_ ->]. apply E3. apply in_or_app. right. left. auto. }
    cbn [url_split]. rewrite (split_app s a c NTR F2).
    assert (P1 : existsb (str_eqb s) protocols = false).
    { destruct (existsb (str_eqb s) protocols) eqn:Q; auto. apply existsb_in in Q. destruct (proto_props s Q) as (_ & N & _). contradiction. }
    assert (P2 : existsb (str_eqb s) [[]; [slash]] = false).
    { destruct (existsb (str_eqb s) [[]; [slash]]) eqn:Q; auto. apply existsb_in in Q. destruct NTR as [T1 T2]. destruct Q as [Q|[Q|[]]]; [congruence|]. exfalso. apply (T2 []). rewrite <- Q. reflexivity. }
    rewrite P1, P2. unfold s. rewrite IH by (auto; lia). cbn [bind]. rewrite map_app. reflexivity.
Qed.
(** Refuted for urls that start with two slashes (scheme-relative urls): the recursion never ends *)
Theorem C59_two_slashes_refuted : forall depth s, starts_with_two_slashes s -> url_split depth s = Err OtherExn.
Proof.
  induction depth as [|n IH]; intros s [r ->]; [reflexivity|]. cbn [url_split]. unfold path_split.
  destruct (cut_spec (slash :: slash :: r)) as (h & t & E & Es & NT & H). rewrite E.
  assert (H2 : exists q, h = slash :: slash :: q).
  { destruct h as [|a [|b h]].
    - exfalso. apply NT. cbn in Es. rewrite <- Es. left. auto.
    - cbn in Es. injection Es as _ Es. exfalso. apply NT. rewrite <- Es. left. auto.
    - cbn in Es. injection Es as <- <- _. eauto. }
  destruct H2 as [q ->]. set (h' := if forallb is_slash (slash :: slash :: q) then slash :: slash :: q else rstrip (slash :: slash :: q)).
  assert (H' : starts_with_two_slashes h').
  { unfold h'. destruct (forallb is_slash (slash :: slash :: q)) eqn:AS; [exists q; reflexivity|].
    unfold rstrip. cbn [rev]. rewrite <- app_assoc. cbn [app].
    assert (G : forall l, forallb is_slash l = false -> drop_slashes (l ++ [slash; slash]) = drop_slashes l ++ [slash; slash]).
    { induction l as [|c l IHl]; [discriminate|]. cbn. destruct (is_slash c); cbn; auto. }
    rewrite G.
    - rewrite rev_app_distr. cbn. eexists. reflexivity.
    - cbn in AS. destruct (forallb is_slash (rev q)) eqn:Q; auto. exfalso. rewrite forallb_forall in Q.
      assert (forallb is_slash q = true); [|congruence]. apply forallb_forall. intros x Hx. apply Q. apply -> in_rev. exact Hx. }
  assert (P1 : existsb (str_eqb h') protocols = false).
  { destruct (existsb (str_eqb h') protocols) eqn:Q; auto. apply existsb_in in Q. destruct (proto_props h' Q) as (_ & N & _). destruct H' as [w Hw]. exfalso. apply N. rewrite Hw. left. auto. }
  assert (P2 : existsb (str_eqb h') [[]; [slash]] = false).
  { destruct (existsb (str_eqb h') [[]; [slash]]) eqn:Q; auto. apply existsb_in in Q. destruct H' as [w Hw]. rewrite Hw in Q. destruct Q as [Q|[Q|[]]]; discriminate. }
  rewrite P1, P2. rewrite (IH h' H'). reflexivity.
Qed.
Example C59_nonvacuous : url_split 50 (chars "https://podaac.jpl.nasa.gov/ws/search") = Ok (map chars ["https://podaac.jpl.nasa.gov"; "ws"; "search"]%string).
Proof. reflexivity. Qed.
