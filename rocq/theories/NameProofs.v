(** The backtracking matcher of NameModel: sound and complete for the language of the pattern, and the first way of the pieces used *)
From Coq Require Import Ascii String List Arith Lia Bool.
From Verif Require Import Base UtilModel TextModel NcIndexModel NameModel.
Import ListNotations.
Close Scope Z_scope.
Open Scope nat_scope.
Open Scope list_scope.

(** the texts of a pattern: groups, matched text, text that follows *)
Fixpoint lang (r : rx) (g : list text) (a b : text) : Prop :=
  match r with
  | Few p | Many p => g = [] /\ Forall (fun c => p c = true) a
  | Times n p => g = [] /\ List.length a = n /\ Forall (fun c => p c = true) a
  | Word same w => g = [] /\ Forall2 (fun c d => same c d = true) w a
  | Sq x y => exists g1 g2 a1 a2, g = g1 ++ g2 /\ a = a1 ++ a2 /\ lang x g1 a1 (a2 ++ b) /\ lang y g2 a2 b
  | Or x y => (exists g1, g = g1 ++ blanks (groups y) /\ lang x g1 a b) \/ (exists g2, g = blanks (groups x) ++ g2 /\ lang y g2 a b)
  | Maybe x => lang x g a b \/ (g = blanks (groups x) /\ a = [])
  | Group x => exists g', g = a :: g' /\ lang x g' a b
  | Eos => g = [] /\ a = [] /\ (b = [] \/ b = [newline])
  end.

Section S.
  Context {A : Type}.
  Implicit Types (k : @kont A) (x : A).
  Lemma few_sound p s : forall done k x, few p done s k = Some x -> exists a b, s = a ++ b /\ Forall (fun c => p c = true) a /\ k [] (done ++ a) b = Some x.
  Proof.
    induction s as [|c s IH]; intros done k x H; cbn [few] in H.
    - destruct (k [] done []) eqn:E; [|discriminate]. injection H as ->. exists [], []. rewrite !app_nil_r. auto.
    - destruct (k [] done (c :: s)) eqn:E; [injection H as ->; exists [], (c :: s); rewrite app_nil_r; auto|].
      destruct (p c) eqn:P; [|discriminate]. destruct (IH _ _ _ H) as (a & b & -> & F & K). exists (c :: a), b. rewrite <- app_assoc in K. auto.
  Qed.
  Lemma few_complete p s : forall done k, few p done s k = None -> forall a b, s = a ++ b -> Forall (fun c => p c = true) a -> k [] (done ++ a) b = None.
  Proof.
    induction s as [|c s IH]; intros done k H a b E F; cbn [few] in H.
    - destruct a; [|discriminate]. cbn in E. subst b. rewrite app_nil_r. now destruct (k [] done []).
    - destruct (k [] done (c :: s)) eqn:K; [discriminate|]. destruct a as [|d a]; [cbn in E; subst b; now rewrite app_nil_r|]. injection E as <- E. inversion F as [|? ? P F']; subst. rewrite P in H.
      replace (done ++ c :: a) with ((done ++ [c]) ++ a) by now rewrite <- app_assoc. now apply (IH _ _ H).
  Qed.
  Lemma many_sound p s : forall done k x, many p done s k = Some x -> exists a b, s = a ++ b /\ Forall (fun c => p c = true) a /\ k [] (done ++ a) b = Some x.
  Proof.
    induction s as [|c s IH]; intros done k x H; cbn [many] in H.
    - exists [], []. rewrite !app_nil_r. auto.
    - destruct (p c) eqn:P; [|exists [], (c :: s); rewrite app_nil_r; auto]. destruct (many p (done ++ [c]) s k) eqn:E.
      + injection H as ->. destruct (IH _ _ _ E) as (a & b & -> & F & K). exists (c :: a), b. rewrite <- app_assoc in K. auto.
      + exists [], (c :: s). rewrite app_nil_r. auto.
  Qed.
  Lemma many_complete p s : forall done k, many p done s k = None -> forall a b, s = a ++ b -> Forall (fun c => p c = true) a -> k [] (done ++ a) b = None.
  Proof.
    induction s as [|c s IH]; intros done k H a b E F; cbn [many] in H.
    - destruct a; [|discriminate]. cbn in E. subst b. now rewrite app_nil_r.
    - destruct a as [|d a].
      + cbn in E. subst b. rewrite app_nil_r. destruct (p c); [|exact H]. now destruct (many p (done ++ [c]) s k).
      + injection E as <- E. inversion F as [|? ? P F']; subst. rewrite P in H. destruct (many p (done ++ [c]) (a ++ b) k) eqn:M; [discriminate|].
        replace (done ++ c :: a) with ((done ++ [c]) ++ a) by now rewrite <- app_assoc. now apply (IH _ _ M).
  Qed.
  Lemma times_sound n p : forall s done k x, times n p done s k = Some x -> exists a b, s = a ++ b /\ List.length a = n /\ Forall (fun c => p c = true) a /\ k [] (done ++ a) b = Some x.
  Proof.
    induction n as [|n IH]; intros s done k x H; cbn [times] in H.
    - exists [], s. rewrite app_nil_r. auto.
    - destruct s as [|c s]; [discriminate|]. destruct (p c) eqn:P; [|discriminate]. destruct (IH _ _ _ _ H) as (a & b & -> & L & F & K). exists (c :: a), b. rewrite <- app_assoc in K. cbn. auto.
  Qed.
  Lemma times_ok n p a : forall done s k, List.length a = n -> Forall (fun c => p c = true) a -> times n p done (a ++ s) k = k [] (done ++ a) s.
  Proof.
    revert n. induction a as [|c a IH]; intros n done s k L F; cbn in L; subst n; cbn [times app]; [now rewrite app_nil_r|].
    inversion F as [|? ? P F']; subst. rewrite P, (IH _ _ _ _ eq_refl F'). now rewrite <- app_assoc.
  Qed.
  Lemma word_sound same w : forall s done k x, word same w done s k = Some x -> exists a b, s = a ++ b /\ Forall2 (fun c d => same c d = true) w a /\ k [] (done ++ a) b = Some x.
  Proof.
    induction w as [|c w IH]; intros s done k x H; cbn [word] in H.
    - exists [], s. rewrite app_nil_r. auto.
    - destruct s as [|d s]; [discriminate|]. destruct (same c d) eqn:P; [|discriminate]. destruct (IH _ _ _ _ H) as (a & b & -> & F & K). exists (d :: a), b. rewrite <- app_assoc in K. auto.
  Qed.
  Lemma word_ok same w a : forall done s k, Forall2 (fun c d => same c d = true) w a -> word same w done (a ++ s) k = k [] (done ++ a) s.
  Proof.
    intros done s k F. revert done. induction F as [|c d w a P F IH]; intros done; cbn [word app]; [now rewrite app_nil_r|]. rewrite P, IH. now rewrite <- app_assoc.
  Qed.
  Theorem run_sound r : forall s k x, run r s k = Some x -> exists g a b, s = a ++ b /\ lang r g a b /\ k g a b = Some x.
  Proof.
    induction r as [p|p|n p|same w|r1 IH1 r2 IH2|r1 IH1 r2 IH2|r IH|r IH|]; intros s k x H; cbn [run lang] in *.
    - apply few_sound in H as (a & b & E & F & K). exists [], a, b. auto.
    - apply many_sound in H as (a & b & E & F & K). exists [], a, b. auto.
    - apply times_sound in H as (a & b & E & L & F & K). exists [], a, b. auto.
    - apply word_sound in H as (a & b & E & F & K). exists [], a, b. auto.
    - apply IH1 in H as (g1 & a1 & b1 & -> & L1 & H). apply IH2 in H as (g2 & a2 & b2 & -> & L2 & K). exists (g1 ++ g2), (a1 ++ a2), b2. rewrite <- app_assoc. repeat split; [|exact K]. exists g1, g2, a1, a2. auto.
    - destruct (run r1 s _) eqn:E.
      + injection H as ->. apply IH1 in E as (g & a & b & -> & L & K). eexists _, a, b. repeat split; [|exact K]. left. eauto.
      + apply IH2 in H as (g & a & b & -> & L & K). eexists _, a, b. repeat split; [|exact K]. right. eauto.
    - destruct (run r s k) eqn:E; [injection H as ->; apply IH in E as (g & a & b & -> & L & K); exists g, a, b; auto|]. exists (blanks (groups r)), [], s. auto.
    - apply IH in H as (g & a & b & -> & L & K). exists (a :: g), a, b. repeat split; [|exact K]. eauto.
    - destruct s as [|c s1]; [exists [], [], []; repeat split; auto|]. destruct s1 as [|d s2]; [|discriminate]. destruct (Ascii.eqb c newline) eqn:CE; [|discriminate]. apply Ascii.eqb_eq in CE. subst c. exists [], [], [newline]. repeat split; auto.
  Qed.
  Theorem run_complete r : forall s k, run r s k = None -> forall g a b, s = a ++ b -> lang r g a b -> k g a b = None.
  Proof.
    induction r as [p|p|n p|same w|r1 IH1 r2 IH2|r1 IH1 r2 IH2|r IH|r IH|]; intros s k H g a b E L; cbn [run lang] in *.
    - destruct L as (-> & F). now apply (few_complete p s [] k H a b).
    - destruct L as (-> & F). now apply (many_complete p s [] k H a b).
    - destruct L as (-> & L & F). subst s. now rewrite (times_ok n p a [] b k L F) in H.
    - destruct L as (-> & F). subst s. now rewrite (word_ok same w a [] b k F) in H.
    - destruct L as (g1 & g2 & a1 & a2 & -> & -> & L1 & L2). rewrite <- app_assoc in E. pose proof (IH1 _ _ H _ _ _ E L1) as K. cbn beta in K. exact (IH2 _ _ K _ _ _ eq_refl L2).
    - destruct (run r1 s (fun g t s' => k (g ++ blanks (groups r2)) t s')) eqn:R; [discriminate|]. destruct L as [(g1 & -> & L)|(g2 & -> & L)].
      + exact (IH1 _ _ R _ _ _ E L).
      + exact (IH2 _ _ H _ _ _ E L).
    - destruct (run r s k) eqn:R; [discriminate|]. destruct L as [L|(-> & ->)]; [exact (IH _ _ R _ _ _ E L)|]. cbn in E. now subst b.
    - destruct L as (g' & -> & L). exact (IH _ _ H _ _ _ E L).
    - destruct L as (-> & -> & [->| ->]); cbn in E; subst s; exact H.
  Qed.
  (** the lazy and the greedy repetition *)
  Lemma few_ok p a : forall done s k x, Forall (fun c => p c = true) a -> (forall a1 c a2, a = a1 ++ c :: a2 -> k [] (done ++ a1) (c :: a2 ++ s) = None) ->
    k [] (done ++ a) s = Some x -> few p done (a ++ s) k = Some x.
  Proof.
    induction a as [|c a IH]; intros done s k x F N K.
    - rewrite app_nil_r in K. cbn [app]. destruct s; cbn [few]; now rewrite K.
    - cbn [app few]. pose proof (N [] c a eq_refl) as N0. rewrite app_nil_r in N0. rewrite N0. inversion F as [|? ? P F']; subst. rewrite P. apply IH; [exact F'| |now rewrite <- app_assoc].
      intros a1 d a2 ->. rewrite <- app_assoc. cbn [app]. apply (N (c :: a1) d a2). reflexivity.
  Qed.
  Lemma many_ok p a : forall done s k x, Forall (fun c => p c = true) a -> (match s with c :: _ => p c = false | [] => True end) -> k [] (done ++ a) s = Some x -> many p done (a ++ s) k = Some x.
  Proof.
    induction a as [|c a IH]; intros done s k x F N K; cbn [app].
    - rewrite app_nil_r in K. destruct s as [|d s]; cbn [many]; [exact K|]. now rewrite N.
    - cbn [many]. inversion F as [|? ? P F']; subst. rewrite P. rewrite (IH _ s k x F' N); [reflexivity|]. now rewrite <- app_assoc.
  Qed.
  Lemma word_head same c w done d s k : same c d = false -> word same (c :: w) done (d :: s) k = None.
  Proof. intros H. cbn [word]. now rewrite H. Qed.
End S.
Lemma same_eqb (w : text) : Forall2 (fun c d => Ascii.eqb c d = true) w w.
Proof. induction w; constructor; [apply Ascii.eqb_refl|assumption]. Qed.
Lemma eqb_same (w a : text) : Forall2 (fun c d => Ascii.eqb c d = true) w a -> w = a.
Proof. intros F. induction F as [|c d w a E F IH]; [reflexivity|]. apply Ascii.eqb_eq in E. congruence. Qed.

(** a match at the beginning that leaves a text without a match is the only one *)
Lemma findall_none r : forall s n, (forall a b, s = a ++ b -> match_at r b = None) -> findall_from n r s = [].
Proof.
  induction s as [|c s IH]; intros n H; destruct n as [|n]; cbn [findall_from]; try reflexivity; rewrite (H [] _ eq_refl); [reflexivity|].
  apply IH. intros a b ->. apply (H (c :: a) b). reflexivity.
Qed.
Lemma last_first r s g rest : match_at r s = Some (g, rest) -> (forall a b, rest = a ++ b -> match_at r b = None) -> last_match r s = Ok g.
Proof. intros M N. unfold last_match, find_groups. cbn [findall_from]. rewrite M, (findall_none r rest _ N). reflexivity. Qed.
(** a name with any match at all is accepted; the groups are those of a match of some piece *)
Lemma findall_some r : forall n s, (forall b, match_at r b <> None -> b <> []) -> List.length s < n -> findall_from n r s = [] -> forall a b, s = a ++ b -> match_at r b = None.
Proof.
  induction n as [|n IH]; intros s NE L H a b E; [lia|]. cbn [findall_from] in H. destruct (match_at r s) as [[g rest]|] eqn:M; [discriminate|]. destruct a as [|c a]; [cbn in E; congruence|].
  destruct s as [|d s]; [discriminate|]. injection E as <- E. cbn in L. apply (IH s NE ltac:(lia) H a b E).
Qed.
Lemma findall_in r : forall n s g, In g (findall_from n r s) -> exists a b rest, s = a ++ b /\ match_at r b = Some (g, rest).
Proof.
  induction n as [|n IH]; intros s g H; cbn [findall_from] in H; [destruct H|]. destruct (match_at r s) as [[g' rest]|] eqn:M.
  - destruct H as [<-|H]; [exists [], s, rest; auto|]. destruct (IH _ _ H) as (a & b & re & -> & M').
    apply run_sound in M as M2. destruct M2 as (g2 & a2 & b2 & E & _ & K). injection K as -> ->. exists (a2 ++ a), b, re. rewrite E, app_assoc. auto.
  - destruct s as [|c s]; [destruct H|]. destruct (IH _ _ H) as (a & b & re & -> & M'). exists (c :: a), b, re. auto.
Qed.
Lemma last_sound r s g : last_match r s = Ok g -> exists a m b, s = a ++ m ++ b /\ lang r g m b.
Proof.
  unfold last_match. intros H. destruct (rev (find_groups r s)) as [|g' l] eqn:E; [discriminate|]. injection H as ->.
  assert (I : In g (find_groups r s)) by (rewrite in_rev, E; now left). apply findall_in in I as (a & b & rest & -> & M). apply run_sound in M as (g2 & a2 & b2 & -> & L & K). injection K as -> ->. eauto.
Qed.
Lemma last_complete r s a m b g : (forall g b, ~ lang r g [] b) -> s = a ++ m ++ b -> lang r g m b -> exists g', last_match r s = Ok g'.
Proof.
  intros NE E L. unfold last_match. destruct (rev (find_groups r s)) as [|g' l] eqn:R; [|eauto]. apply (f_equal (@rev _)) in R. rewrite rev_involutive in R. cbn in R.
  assert (N : match_at r (m ++ b) = None). { apply (findall_some r (S (List.length s)) s) with (a := a); [|lia|exact R|exact E]. intros b' H ->. apply H. destruct (match_at r []) as [[g2 r2]|] eqn:M; [|reflexivity]. apply run_sound in M as (g3 & a3 & b3 & X & L3 & _). symmetry in X. apply app_eq_nil in X as (-> & ->). now apply NE in L3. }
  pose proof (run_complete r _ _ N g m b eq_refl L). discriminate.
Qed.
Lemma last_error r s e : last_match r s = Err e -> e = IndexError.
Proof. unfold last_match. destruct (rev _); congruence. Qed.
