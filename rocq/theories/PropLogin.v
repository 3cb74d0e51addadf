(** C140: logging in to Earthdata: the credentials that are tried, and when it succeeds. *)
From Coq Require Import List Bool String Arith Lia.
From Verif Require Import Base LoginModel.
Import ListNotations.
Close Scope Z_scope.
Open Scope nat_scope.
Open Scope string_scope.

(** ** Specification: the candidates, in order, are the first credentials and the pairs typed afterwards; the one that is accepted is the first that the server accepts *)
Definition accepted_at (check : nat -> cred -> bool) (cs : list cred) (i : nat) (c : cred) : Prop :=
  nth_error cs i = Some c /\ check i c = true /\ forall j d, j < i -> nth_error cs j = Some d -> check j d = false.
Definition all_refused (check : nat -> cred -> bool) (cs : list cred) : Prop := forall j d, nth_error cs j = Some d -> check j d = false.

Lemma attempts_spec check : forall n k c names pws,
  let cs := firstn n (c :: combine names pws) in
  let r := attempts check true n k c names pws in
  (forall d, fst r = Opener d <-> exists i, accepted_at (fun j => check (k + j)) cs i d /\ snd r = firstn (S i) cs) /\
  (fst r = RuntimeErr <-> n <= List.length names /\ n <= List.length pws /\ all_refused (fun j => check (k + j)) cs) /\
  fst r <> Unbound /\ (exists m, snd r = firstn m cs).
Proof.
  induction n as [|n IH]; intros k c names pws; cbn zeta.
  - cbn [attempts firstn fst snd]. split; [intros d; split; [discriminate|intros (i & (H & _) & _); destruct i; discriminate H]|]. split; [split; [intros _; split; [lia|split; [lia|]]; intros [|j] d H; discriminate H|reflexivity]|]. split; [discriminate|exists 0; reflexivity].
  - cbn [attempts]. destruct (check k c) eqn:Ck.
    + cbn [fst snd]. split; [|split; [split; [discriminate|]|split; [discriminate|exists 1; destruct n; reflexivity]]].
      * intros d. split.
        -- intros E. injection E as <-. exists 0. split; [|destruct n; reflexivity]. split; [reflexivity|]. split; [rewrite Nat.add_0_r; exact Ck|intros j d H; lia].
        -- intros (i & (H & _ & H2) & _). destruct i as [|i]; [cbn in H; injection H as <-; reflexivity|]. specialize (H2 0 c ltac:(lia) eq_refl). cbn in H2. rewrite Nat.add_0_r in H2. congruence.
      * intros (_ & _ & H). specialize (H 0 c eq_refl). cbn in H. rewrite Nat.add_0_r in H. congruence.
    + assert (Stop : forall e, e <> RuntimeErr -> (forall d, e <> Opener d) -> e <> Unbound -> (names = [] \/ pws = []) ->
        let r := (e, [c]) in (forall d, fst r = Opener d <-> exists i, accepted_at (fun j => check (k + j)) (firstn (S n) (c :: combine names pws)) i d /\ snd r = firstn (S i) (firstn (S n) (c :: combine names pws))) /\
        (fst r = RuntimeErr <-> S n <= List.length names /\ S n <= List.length pws /\ all_refused (fun j => check (k + j)) (firstn (S n) (c :: combine names pws))) /\ fst r <> Unbound /\ exists m, snd r = firstn m (firstn (S n) (c :: combine names pws))).
      { intros e N1 N2 N3 Em. assert (Ec : combine names pws = []) by (destruct Em as [->| ->]; [reflexivity|destruct names; reflexivity]). rewrite Ec. cbn [fst snd firstn]. rewrite firstn_nil.
        split; [|split; [split; [contradiction|]|split; [exact N3|exists 1; reflexivity]]].
        - intros d. split; [intros E; destruct (N2 d E)|]. intros (i & (H & H1 & _) & _). destruct i as [|[|i]]; try discriminate H. cbn in H. injection H as <-. rewrite Nat.add_0_r in H1. congruence.
        - intros (H1 & H2 & _). destruct Em as [->| ->]; cbn in *; lia. }
      destruct names as [|u names]; [apply Stop; [discriminate|discriminate|discriminate|left; reflexivity]|]. cbn [negb].
      destruct pws as [|p pws]; [apply Stop; [discriminate|discriminate|discriminate|right; reflexivity]|]. clear Stop.
      destruct (IH (S k) (u, p) names pws) as (A & B & C & (m & D)). cbn zeta in *. cbn [fst snd combine]. remember (attempts check true n (S k) (u, p) names pws) as r eqn:Er. clear Er.
      remember ((u, p) :: combine names pws) as l eqn:El. assert (F : firstn (S n) (c :: l) = c :: firstn n l) by reflexivity. rewrite F. clear F El.
      assert (Sh : forall j d, check (S k + j) d = check (k + S j) d) by (intros j d; f_equal; lia).
      split; [|split; [|split; [exact C|exists (S m); cbn [firstn]; rewrite D; reflexivity]]].
      * intros d. rewrite (A d). split.
        -- intros (i & (H & H1 & H2) & H3). exists (S i). split; [|cbn [firstn] in *; rewrite H3; reflexivity]. split; [exact H|]. split; [rewrite <- Sh; exact H1|]. intros [|j] x Hj Hx; [cbn in Hx; injection Hx as <-; rewrite Nat.add_0_r; exact Ck|]. rewrite <- Sh. apply H2; [lia|exact Hx].
        -- intros (i & (H & H1 & H2) & H3). destruct i as [|i]; [cbn in H; injection H as <-; rewrite Nat.add_0_r in H1; congruence|]. exists i. split; [|cbn [firstn] in H3; injection H3 as H3; exact H3]. split; [exact H|]. split; [rewrite Sh; exact H1|]. intros j x Hj Hx. rewrite Sh. apply H2; [lia|exact Hx].
      * rewrite B. split.
        -- intros (H1 & H2 & H3). split; [cbn; lia|]. split; [cbn; lia|]. intros [|j] x Hx; [cbn in Hx; injection Hx as <-; rewrite Nat.add_0_r; exact Ck|]. rewrite <- Sh. apply H3. exact Hx.
        -- intros (H1 & H2 & H3). split; [cbn in H1; lia|]. split; [cbn in H2; lia|]. intros j x Hx. rewrite Sh. apply H3. exact Hx.
Qed.

(** nothing stored: the pairs typed are tried in order, at most as many as there are retries, until the first that the server accepts; the login ends with the exception exactly when enough was typed and all of them were refused *)
Theorem C140_typed : forall check retries netrc ku kp eu ep names pws,
  let s := stored netrc ku kp eu ep in truthy (fst s) = None -> truthy (snd s) = None -> names <> [] -> pws <> [] ->
  let cs := firstn retries (combine names pws) in let r := login check retries netrc ku kp eu ep names pws in
  (forall c, fst r = Opener c <-> exists i, accepted_at check cs i c /\ snd r = firstn (S i) cs) /\
  (fst r = RuntimeErr <-> retries < List.length names /\ retries < List.length pws /\ all_refused check cs) /\ fst r <> Unbound /\ exists m, snd r = firstn m cs.
Proof.
  intros check n netrc ku kp eu ep names pws. cbn zeta. intros U P N1 N2. unfold login, ask. rewrite U, P. destruct names as [|u names]; [contradiction|]. destruct pws as [|p pws]; [contradiction|]. cbn [combine].
  destruct (attempts_spec check n 0 (u, p) names pws) as (A & B & C & D). cbn [Nat.add] in A, B. split; [exact A|]. split; [|split; [exact C|exact D]].
  change (all_refused (fun j => check j) (firstn n ((u, p) :: combine names pws))) with (all_refused check (firstn n ((u, p) :: combine names pws))) in B. rewrite B. cbn [List.length]. split; intros (H1 & H2 & H3); (split; [lia|split; [lia|exact H3]]).
Qed.
Print Assumptions C140_typed.
(** only the name stored: the first name is the stored one *)
Theorem C140_name_stored : forall check retries netrc ku kp eu ep names pws u,
  let s := stored netrc ku kp eu ep in truthy (fst s) = Some u -> truthy (snd s) = None -> pws <> [] ->
  let cs := firstn retries (combine (u :: names) pws) in let r := login check retries netrc ku kp eu ep names pws in
  (forall c, fst r = Opener c <-> exists i, accepted_at check cs i c /\ snd r = firstn (S i) cs) /\ fst r <> Unbound /\ exists m, snd r = firstn m cs.
Proof.
  intros check n netrc ku kp eu ep names pws u. cbn zeta. intros U P N2. unfold login, ask. rewrite U, P. destruct pws as [|p pws]; [contradiction|]. cbn [combine].
  destruct (attempts_spec check n 0 (u, p) names pws) as (A & B & C & D). cbn [Nat.add] in A. split; [exact A|]. split; [exact C|exact D].
Qed.
Print Assumptions C140_name_stored.
(** stored and right: it is used at once and nothing is asked *)
Theorem C140_stored : forall check retries netrc ku kp eu ep names pws u p,
  let s := stored netrc ku kp eu ep in truthy (fst s) = Some u -> truthy (snd s) = Some p -> retries <> 0 -> check 0 (u, p) = true ->
  login check retries netrc ku kp eu ep names pws = (Opener (u, p), [(u, p)]).
Proof.
  intros check n netrc ku kp eu ep names pws u p. cbn zeta. intros U P N H. unfold login, ask. rewrite U, P. destruct n; [contradiction|]. cbn [attempts]. rewrite H. reflexivity.
Qed.
Print Assumptions C140_stored.
(** where the first credentials come from: the netrc entry before the keywords, the keywords before the environment *)
Theorem C140_precedence : forall netrc ku kp eu ep u p, stored netrc ku kp eu ep = (Some u, Some p) <->
  netrc = Some (u, p) \/ (netrc = None /\ (ku = Some (Some u) \/ (ku = None /\ eu = Some u)) /\ (kp = Some (Some p) \/ (kp = None /\ ep = Some p))).
Proof.
  intros netrc ku kp eu ep u p. unfold stored, setdefault. destruct netrc as [[a b]|].
  - split; [intros E; injection E as -> ->; left; reflexivity|]. intros [E|(E & _)]; [injection E as -> ->; reflexivity|discriminate].
  - split.
    + intros E. right. split; [reflexivity|]. destruct ku as [ku|], kp as [kp|]; injection E as -> ->; auto.
    + intros [E|(_ & [-> | (-> & ->)] & [-> | (-> & ->)])]; [discriminate|reflexivity..].
Qed.
Print Assumptions C140_precedence.
(** whatever is tried is stored or typed: the first attempt has the stored name and password where there are some, and no more attempts are made than there are retries *)
Theorem C140_bounded : forall check retries netrc ku kp eu ep names pws, List.length (snd (login check retries netrc ku kp eu ep names pws)) <= retries.
Proof.
  intros check n netrc ku kp eu ep names pws. unfold login. destruct (ask _ names) as [[[u b] names']|]; [|cbn; lia]. destruct (ask _ pws) as [[[p b'] pws']|]; [|cbn; lia].
  generalize 0 as k, (u, p) as c. clear. revert names' pws'. induction n as [|n IH]; intros names pws k c; cbn [attempts]; [cbn; lia|]. destruct (check k c); [cbn; lia|]. destruct names as [|x names]; [cbn; lia|]. destruct b'; cbn [negb]; [|cbn; lia]. destruct pws as [|y pws]; [cbn; lia|]. cbn [snd List.length]. specialize (IH names pws (S k) (x, y)). lia.
Qed.
Print Assumptions C140_bounded.
(** a stored password that the server refuses is not replaced by one that is typed: the name is asked for, then the text of the prompt has no value and the call fails, whatever the server would accept *)
Theorem C140_stale_password_refuted : forall check retries netrc ku kp eu ep names pws u p,
  let s := stored netrc ku kp eu ep in truthy (fst s) = Some u -> truthy (snd s) = Some p -> retries <> 0 -> check 0 (u, p) = false -> names <> [] ->
  login check retries netrc ku kp eu ep names pws = (Unbound, [(u, p)]).
Proof.
  intros check n netrc ku kp eu ep names pws u p. cbn zeta. intros U P N H N2. unfold login, ask. rewrite U, P. destruct n; [contradiction|]. cbn [attempts]. rewrite H. destruct names; [contradiction|]. reflexivity.
Qed.
Print Assumptions C140_stale_password_refuted.
(** after the last refusal one more pair is asked for, which is never tried *)
Theorem C140_last_answer_refuted : forall check retries netrc ku kp eu ep names pws u p v q, let s := stored netrc ku kp eu ep in truthy (fst s) = None -> truthy (snd s) = None ->
  List.length names = retries -> List.length pws = retries -> retries <> 0 -> all_refused check (combine names pws) ->
  fst (login check retries netrc ku kp eu ep (names ++ [u]) (pws ++ [p])) = RuntimeErr /\
  login check retries netrc ku kp eu ep (names ++ [u]) (pws ++ [p]) = login check retries netrc ku kp eu ep (names ++ [v]) (pws ++ [q]) /\
  fst (login check retries netrc ku kp eu ep names pws) = EOFErr.
Proof.
  intros check n netrc ku kp eu ep names pws u p v q. cbn zeta. intros U P L1 L2 N R. unfold login, ask. rewrite U, P. destruct names as [|a names]; [cbn in L1; lia|]. destruct pws as [|b pws]; [cbn in L2; lia|]. cbn [app combine] in *.
  assert (G : forall n k c names pws, List.length names = n -> List.length pws = n -> (forall j d, nth_error (c :: combine names pws) j = Some d -> check (k + j) d = false) ->
    fst (attempts check true (S n) k c (names ++ [u]) (pws ++ [p])) = RuntimeErr /\ attempts check true (S n) k c (names ++ [u]) (pws ++ [p]) = attempts check true (S n) k c (names ++ [v]) (pws ++ [q]) /\ fst (attempts check true (S n) k c names pws) = EOFErr).
  { clear. induction n as [|n IH]; intros k c names pws L1 L2 R.
    - destruct names; [|discriminate]. destruct pws; [|discriminate]. cbn. specialize (R 0 c eq_refl). rewrite Nat.add_0_r in R. rewrite R. cbn. repeat split.
    - destruct names as [|x names]; [discriminate|]. destruct pws as [|y pws]; [discriminate|]. cbn [List.length] in *. injection L1 as L1. injection L2 as L2.
      destruct (IH (S k) (x, y) names pws L1 L2) as (A & B & C). { intros j d Hd. specialize (R (S j) d Hd). rewrite <- R. f_equal. lia. }
      pose proof (R 0 c eq_refl) as R0. rewrite Nat.add_0_r in R0. remember (S n) as n' eqn:En. cbn [attempts app]. rewrite R0. cbn [negb fst]. split; [exact A|]. split; [rewrite B; reflexivity|exact C]. }
  destruct n as [|n]; [contradiction|]. cbn in L1, L2. injection L1 as L1. injection L2 as L2. exact (G n 0 (a, b) names pws L1 L2 R).
Qed.
Print Assumptions C140_last_answer_refuted.
(** the functions for tokens pass None for what they are not given, so that the environment is never used; attempt_login itself uses it *)
Theorem C140_environment_refuted : forall check eu ep eu' ep' names pws, token_login check None None None eu ep names pws = token_login check None None None eu' ep' names pws.
Proof. reflexivity. Qed.
Print Assumptions C140_environment_refuted.
Theorem C140_environment : forall check n u p names pws, u <> "" -> p <> "" -> n <> 0 -> check 0 (u, p) = true -> login check n None None None (Some u) (Some p) names pws = (Opener (u, p), [(u, p)]).
Proof. intros check n u p names pws U P N H. apply C140_stored; [destruct u; [contradiction|reflexivity]|destruct p; [contradiction|reflexivity]|exact N|exact H]. Qed.
Print Assumptions C140_environment.
(** the drive: a complete pair is used as it is and the netrc entry when nothing is given; no entry is a TypeError *)
Theorem C140_drive : forall entry u p, u <> "" -> p <> "" ->
  drive_credentials entry (Some u) (Some p) = Ok (Some u, Some p) /\ drive_credentials (Some (u, p)) None None = Ok (Some u, Some p) /\ drive_credentials None None None = Err TypeError.
Proof. intros entry u p U P. unfold drive_credentials. destruct u; [contradiction|]. destruct p; [contradiction|]. repeat split. Qed.
Print Assumptions C140_drive.
(** half a pair is not completed from the netrc file: the other half stays None *)
Theorem C140_drive_half_refuted : forall entry u, u <> "" -> drive_credentials entry (Some u) None = Ok (Some u, None) /\ drive_credentials entry None (Some u) = Ok (None, Some u).
Proof. intros entry u U. unfold drive_credentials. destruct u; [contradiction|]. repeat split. Qed.
Print Assumptions C140_drive_half_refuted.

(** ** Example: the second pair typed is right *)
Example C140_example : let check := fun (_ : nat) (c : cred) => String.eqb (snd c) "b" in
  let cs := firstn 5 (combine ["u"; "u"; "w"] ["a"; "b"; "c"]) in
  accepted_at check cs 1 ("u", "b") /\ login check 5 None None None None None ["u"; "u"; "w"] ["a"; "b"; "c"] = (Opener ("u", "b"), [("u", "a"); ("u", "b")]) /\
  login check 5 (Some ("u", "a")) None None None None ["u"; "u"] ["b"] = (Unbound, [("u", "a")]).
Proof. cbn zeta. split; [|split; reflexivity]. split; [reflexivity|]. split; [reflexivity|]. intros [|j] d H E; [cbn in E; injection E as <-; reflexivity|lia]. Qed.
