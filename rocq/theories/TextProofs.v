(** Proofs about the text layer (TextModel): the backtracking matcher is deterministic on the number patterns. *)
From Coq Require Import Reals Ascii String Lra Lia.
From Verif Require Import Base Arr DestripeModel UtilModel HarmModel TextModel.
Close Scope Z_scope.
Open Scope list_scope.
Notation text := (list ascii).

(** ** matcher: sequences *)
Lemma seq_hd a b s x r y r' : hd_error (matches a s) = Some (x, r) -> hd_error (matches b r) = Some (y, r') -> hd_error (matches (RSeq a b) s) = Some (x ++ y, r').
Proof. cbn [matches]. destruct (matches a s) as [|[x0 r0] l]; [discriminate|]. cbn. intros [= -> ->]. destruct (matches b r) as [|[y0 r0] l']; [discriminate|]. cbn. now intros [= -> ->]. Qed.
Lemma seq_none a b s : matches a s = [] -> matches (RSeq a b) s = [].
Proof. cbn [matches]. now intros ->. Qed.
Lemma seq_none2 a b s x r : matches a s = [(x, r)] -> matches b r = [] -> matches (RSeq a b) s = [].
Proof. cbn [matches]. intros ->. cbn. now intros ->. Qed.
Lemma opt_hd a s : hd_error (matches (ROpt a) s) = match hd_error (matches a s) with Some x => Some x | None => Some ([], s) end.
Proof. cbn [matches]. now destruct (matches a s). Qed.
Lemma alt_hd a b s : hd_error (matches (RAlt a b) s) = match hd_error (matches a s) with Some x => Some x | None => hd_error (matches b s) end.
Proof. cbn [matches]. now destruct (matches a s). Qed.
Lemma hd_nil {A} (l : list A) : hd_error l = None <-> l = [].
Proof. destruct l; cbn; split; congruence. Qed.
Lemma map_id_pair (l : list (text * text)) : map (fun y => ([] ++ fst y, snd y)) l = l.
Proof. induction l as [|[a b] l IH]; [reflexivity|]. cbn [map]. rewrite IH. reflexivity. Qed.
(** an optional character before a pattern that does not start with it *)
Lemma opt_seq p b s : (forall c t, p c = true -> matches b (c :: t) = []) ->
  matches (RSeq (ROpt (RChar p)) b) s = match s with c :: t => if p c then map (fun y => (c :: fst y, snd y)) (matches b t) else matches b s | [] => matches b s end.
Proof.
  intros H. cbn [matches]. destruct s as [|c t]; [cbn; now rewrite app_nil_r, map_id_pair|].
  destruct (p c) eqn:E; cbn; rewrite ?app_nil_r, ?map_id_pair; [|reflexivity]. rewrite (H c t E). cbn. now rewrite app_nil_r.
Qed.
(** greedy repetition: the longest one first, all others stop before a character of the class *)
Fixpoint span (p : ascii -> bool) (s : text) : text * text :=
  match s with c :: t => if p c then let '(d, r) := span p t in (c :: d, r) else ([], s) | [] => ([], []) end.
Lemma star_span p s : exists l, star p s = span p s :: l /\ Forall (fun x => exists c t, snd x = c :: t /\ p c = true) l.
Proof.
  induction s as [|c t (l & E & F)]; [exists []; split; [reflexivity|constructor]|]. cbn [star span]. destruct (p c) eqn:P; [|exists []; split; [reflexivity|constructor]].
  rewrite E. destruct (span p t) as [d r]. cbn. eexists. split; [reflexivity|]. apply Forall_app. split.
  - apply Forall_map. eapply Forall_impl; [|exact F]. intros [a b] (c' & t' & H & H'). cbn in *. eauto.
  - repeat constructor. cbn. eauto.
Qed.
Lemma star_hd p s : hd_error (matches (RStar p) s) = Some (span p s).
Proof. cbn [matches]. destruct (star_span p s) as (l & -> & _). reflexivity. Qed.
Lemma star_seq p b s : (forall c t, p c = true -> matches b (c :: t) = []) ->
  matches (RSeq (RStar p) b) s = map (fun y => (fst (span p s) ++ fst y, snd y)) (matches b (snd (span p s))).
Proof.
  intros H. cbn [matches]. destruct (star_span p s) as (l & -> & F). cbn. rewrite <- app_nil_r. f_equal.
  induction F as [|x l (c & t & E & P) F IH]; cbn; [reflexivity|]. now rewrite E, (H c t P), IH.
Qed.
Lemma span_digits s : span is_digit s = take_digits s.
Proof. induction s as [|c t IH]; cbn; [reflexivity|]. now rewrite IH. Qed.
Lemma plus_hd p s : hd_error (matches (RPlus p) s) = match s with c :: t => if p c then Some (c :: fst (span p t), snd (span p t)) else None | [] => None end.
Proof.
  unfold RPlus. destruct s as [|c t]; [reflexivity|]. destruct (p c) eqn:P.
  - destruct (span p t) as [u v] eqn:SP. erewrite seq_hd; [|cbn; rewrite P; reflexivity|rewrite star_hd, SP; reflexivity]. reflexivity.
  - cbn [matches]. rewrite P. reflexivity.
Qed.
Lemma plus_digits s : hd_error (matches (RPlus is_digit) s) = match take_digits s with ([], _) => None | x => Some x end.
Proof.
  rewrite plus_hd. destruct s as [|c t]; [reflexivity|]. cbn [take_digits]. rewrite span_digits. destruct (is_digit c); [|reflexivity].
  now destruct (take_digits t).
Qed.

(** ** classes *)
Lemma point_not_digit c : is_point c = true -> is_digit c = false.
Proof. unfold is_point. intros H. apply Ascii.eqb_eq in H. now subst. Qed.
Lemma sign_not_digit c : is_sign c = true -> is_digit c = false.
Proof. unfold is_sign. intros H. apply orb_prop in H. destruct H as [H|H]; apply Ascii.eqb_eq in H; now subst. Qed.
Lemma sign_not_point c : is_sign c = true -> is_point c = false.
Proof. unfold is_sign. intros H. apply orb_prop in H. destruct H as [H|H]; apply Ascii.eqb_eq in H; now subst. Qed.
Lemma exp_not_digit f c : is_exp f c = true -> is_digit c = false.
Proof. unfold is_exp. intros H. apply orb_prop in H. destruct H as [H|H]; [apply orb_prop in H; destruct H as [H|H]|apply andb_prop in H; destruct H as [_ H]]; apply Ascii.eqb_eq in H; now subst. Qed.
Lemma exp_not_sign f c : is_exp f c = true -> is_sign c = false.
Proof. unfold is_exp. intros H. apply orb_prop in H. destruct H as [H|H]; [apply orb_prop in H; destruct H as [H|H]|apply andb_prop in H; destruct H as [_ H]]; apply Ascii.eqb_eq in H; now subst. Qed.
Lemma exp_not_point f c : is_exp f c = true -> is_point c = false.
Proof. unfold is_exp. intros H. apply orb_prop in H. destruct H as [H|H]; [apply orb_prop in H; destruct H as [H|H]|apply andb_prop in H; destruct H as [_ H]]; apply Ascii.eqb_eq in H; now subst. Qed.

(** ** the deterministic scanner *)
Definition scan_exp (f : bool) (s : text) : text * text :=
  match s with
  | c :: t => if is_exp f c then
                match t with
                | d :: u => if is_sign d then match take_digits u with ([], _) => ([], s) | (x, r) => (c :: d :: x, r) end
                            else match take_digits t with ([], _) => ([], s) | (x, r) => (c :: x, r) end
                | [] => ([], s)
                end
              else ([], s)
  | [] => ([], s)
  end.
Definition scan_mant (s : text) : option (text * text) :=
  let '(a, r) := take_digits s in
  match r with
  | c :: t => if is_point c then match take_digits t with
                                 | ([], _) => match a with [] => None | _ => Some (a ++ [c], t) end
                                 | (b, r') => Some (a ++ c :: b, r')
                                 end
              else match a with [] => None | _ => Some (a, r) end
  | [] => match a with [] => None | _ => Some (a, r) end
  end.
Definition tail_exp (f : bool) (pre : text) (x : option (text * text)) : option (text * text) :=
  match x with Some (m, r) => let '(e, r') := scan_exp f r in Some (pre ++ m ++ e, r') | None => None end.
Definition scan (f : bool) (s : text) : option (text * text) :=
  match s with
  | c :: t => if is_sign c then tail_exp f [c] (scan_mant t) else tail_exp f [] (scan_mant s)
  | [] => None
  end.
Definition scan_inf (s : text) : option (text * text) :=
  match s with a :: b :: c :: t => if str_eqb [a; b; c] (chars "inf") then Some (chars "inf", t) else None | _ => None end.
Definition scan_mant_love (s : text) : option (text * text) := match scan_mant s with Some x => Some x | None => scan_inf s end.
Definition scan_love (s : text) : option (text * text) :=
  match s with
  | c :: t => if is_sign c then tail_exp false [c] (scan_mant_love t) else tail_exp false [] (scan_mant_love s)
  | [] => None
  end.

Lemma exp_scan f s : hd_error (matches (exponent f) s) = Some (scan_exp f s).
Proof.
  unfold exponent. rewrite opt_hd. destruct s as [|c t]; [reflexivity|]. cbn [scan_exp]. destruct (is_exp f c) eqn:E.
  2: { rewrite seq_none; [reflexivity|]. cbn. now rewrite E. }
  assert (D : forall c0 t0, is_sign c0 = true -> matches (RPlus is_digit) (c0 :: t0) = []).
  { intros c0 t0 H. apply seq_none. cbn. now rewrite (sign_not_digit _ H). }
  assert (M : matches (RChar (is_exp f)) (c :: t) = [([c], t)]) by (cbn; now rewrite E).
  destruct t as [|d u].
  { rewrite (seq_none2 _ _ _ _ _ M); [reflexivity|]. rewrite opt_seq by exact D. reflexivity. }
  destruct (is_sign d) eqn:S.
  - assert (O : matches (RSeq (ROpt (RChar is_sign)) (RPlus is_digit)) (d :: u) = map (fun y => (d :: fst y, snd y)) (matches (RPlus is_digit) u)) by (rewrite opt_seq by exact D; now rewrite S).
    pose proof (plus_digits u) as P. destruct (take_digits u) as [[|x0 x] r].
    + apply hd_nil in P. rewrite (seq_none2 _ _ _ _ _ M); [reflexivity|]. now rewrite O, P.
    + erewrite seq_hd; [|rewrite M; reflexivity|rewrite O; destruct (matches (RPlus is_digit) u) as [|[a b] l]; [discriminate|]; cbn; injection P as -> ->; reflexivity]. reflexivity.
  - assert (O : matches (RSeq (ROpt (RChar is_sign)) (RPlus is_digit)) (d :: u) = matches (RPlus is_digit) (d :: u)) by (rewrite opt_seq by exact D; now rewrite S).
    pose proof (plus_digits (d :: u)) as P. destruct (take_digits (d :: u)) as [[|x0 x] r].
    + apply hd_nil in P. rewrite (seq_none2 _ _ _ _ _ M); [reflexivity|]. now rewrite O, P.
    + erewrite seq_hd; [|rewrite M; reflexivity|rewrite O; exact P]. reflexivity.
Qed.
Definition mant1 : regex := RSeq (RStar is_digit) (RSeq (RChar is_point) (RPlus is_digit)).
Definition mant2 : regex := RSeq (RPlus is_digit) (ROpt (RChar is_point)).
Lemma mant1_scan s : hd_error (matches mant1 s) = let '(a, r) := take_digits s in
  match r with c :: t => if is_point c then match take_digits t with ([], _) => None | (b, r') => Some (a ++ c :: b, r') end else None | [] => None end.
Proof.
  unfold mant1. rewrite star_seq.
  2: { intros c t H. apply seq_none. cbn. destruct (is_point c) eqn:P; [|reflexivity]. apply point_not_digit in P. congruence. }
  rewrite span_digits. destruct (take_digits s) as [a r]. cbn [fst snd]. destruct r as [|c t]; [reflexivity|].
  destruct (is_point c) eqn:P.
  2: { rewrite seq_none; [reflexivity|]. cbn. now rewrite P. }
  assert (M : matches (RChar is_point) (c :: t) = [([c], t)]) by (cbn; now rewrite P).
  pose proof (plus_digits t) as Q. destruct (take_digits t) as [[|b0 b] r'].
  - apply hd_nil in Q. now rewrite (seq_none2 _ _ _ _ _ M Q).
  - assert (H : hd_error (matches (RSeq (RChar is_point) (RPlus is_digit)) (c :: t)) = Some ([c] ++ b0 :: b, r')) by (eapply seq_hd; [rewrite M; reflexivity|exact Q]).
    destruct (matches (RSeq (RChar is_point) (RPlus is_digit)) (c :: t)) as [|[u v] l]; [discriminate|]. injection H as -> ->. reflexivity.
Qed.
Lemma mant2_scan s : hd_error (matches mant2 s) = match take_digits s with
  ([], _) => None | (a, c :: t) => if is_point c then Some (a ++ [c], t) else Some (a, c :: t) | (a, []) => Some (a, []) end.
Proof.
  unfold mant2. pose proof (plus_digits s) as Q. destruct (take_digits s) as [[|a0 a] r].
  - apply hd_nil in Q. now rewrite seq_none.
  - destruct r as [|c t]; [|destruct (is_point c) eqn:P].
    + erewrite seq_hd; [|exact Q|rewrite opt_hd; reflexivity]. now rewrite app_nil_r.
    + erewrite seq_hd; [|exact Q|rewrite opt_hd; cbn; rewrite P; reflexivity]. reflexivity.
    + erewrite seq_hd; [|exact Q|rewrite opt_hd; cbn; rewrite P; reflexivity]. now rewrite app_nil_r.
Qed.
Lemma mant_scan s : hd_error (matches (RAlt mant1 mant2) s) = scan_mant s.
Proof.
  rewrite alt_hd, mant1_scan, mant2_scan. unfold scan_mant. destruct (take_digits s) as [a r]. destruct r as [|c t].
  - now destruct a.
  - destruct (is_point c); [|now destruct a]. destruct (take_digits t) as [[|b0 b] r']; [now destruct a|reflexivity].
Qed.
Lemma mant_sign c t : is_sign c = true -> matches (RAlt mant1 mant2) (c :: t) = [].
Proof. intros H. apply hd_nil. rewrite mant_scan. unfold scan_mant. cbn [take_digits]. rewrite (sign_not_digit _ H), (sign_not_point _ H). reflexivity. Qed.
Lemma seq_exp f a s : hd_error (matches (RSeq a (exponent f)) s) = tail_exp f [] (hd_error (matches a s)).
Proof.
  destruct (hd_error (matches a s)) as [[x r]|] eqn:E.
  - pose proof (exp_scan f r) as X. unfold tail_exp. destruct (scan_exp f r) as [e r1]. erewrite seq_hd; [|exact E|exact X]. reflexivity.
  - apply hd_nil in E. rewrite seq_none by exact E. reflexivity.
Qed.
Lemma map_hd (c : ascii) (l : list (text * text)) : hd_error (map (fun y => (c :: fst y, snd y)) l) = match hd_error l with Some (x, r) => Some (c :: x, r) | None => None end.
Proof. destruct l as [|[x r] l]; reflexivity. Qed.
Lemma tail_exp_cons f c x : match tail_exp f [] x with Some (m, r) => Some (c :: m, r) | None => None end = tail_exp f [c] x.
Proof. destruct x as [[m r]|]; [|reflexivity]. cbn. now destruct (scan_exp f r). Qed.

Theorem number_scan f s : re_match (number_pattern f) s = scan f s.
Proof.
  unfold re_match, number_pattern. change (RSeq (RStar is_digit) (RSeq (RChar is_point) (RPlus is_digit))) with mant1. change (RSeq (RPlus is_digit) (ROpt (RChar is_point))) with mant2.
  rewrite opt_seq by (intros c t H; apply seq_none, mant_sign, H). destruct s as [|c t].
  - rewrite seq_exp, mant_scan. reflexivity.
  - cbn [scan]. destruct (is_sign c) eqn:S.
    + rewrite map_hd, seq_exp, mant_scan. apply tail_exp_cons.
    + now rewrite seq_exp, mant_scan.
Qed.
Lemma char_seq p r c t : matches (RSeq (RChar p) r) (c :: t) = if p c then map (fun y => (c :: fst y, snd y)) (matches r t) else [].
Proof. cbn [matches]. destruct (p c); [cbn; now rewrite app_nil_r|reflexivity]. Qed.
Lemma str_eqb_iff a b : str_eqb a b = true <-> a = b.
Proof. unfold str_eqb. destruct (list_eq_dec ascii_dec a b); split; congruence. Qed.
Lemma inf_scan s : hd_error (matches (RLit "inf") s) = scan_inf s.
Proof.
  unfold RLit. cbn [chars list_ascii_of_string fold_right].
  destruct s as [|a [|b [|c s]]]; try reflexivity.
  - rewrite char_seq. now destruct (Ascii.eqb "i" a).
  - rewrite !char_seq. destruct (Ascii.eqb "i" a), (Ascii.eqb "n" b); reflexivity.
  - rewrite !char_seq. cbn [scan_inf]. destruct (str_eqb [a; b; c] (chars "inf")) eqn:E.
    + apply str_eqb_iff in E. injection E as -> -> ->. cbn. destruct s; reflexivity.
    + destruct (Ascii.eqb "i" a) eqn:EA; [|reflexivity]. destruct (Ascii.eqb "n" b) eqn:EB; [|reflexivity]. destruct (Ascii.eqb "f" c) eqn:EC; [|reflexivity].
      apply Ascii.eqb_eq in EA, EB, EC. subst. discriminate.
Qed.
Lemma mant_love_scan s : hd_error (matches (RAlt mant1 (RAlt mant2 (RLit "inf"))) s) = scan_mant_love s.
Proof.
  unfold scan_mant_love. rewrite <- mant_scan, <- inf_scan, !alt_hd. destruct (hd_error (matches mant1 s)); [reflexivity|]. reflexivity.
Qed.
Theorem love_scan s : re_match love_pattern s = scan_love s.
Proof.
  unfold re_match, love_pattern. change (RSeq (RStar is_digit) (RSeq (RChar is_point) (RPlus is_digit))) with mant1. change (RSeq (RPlus is_digit) (ROpt (RChar is_point))) with mant2.
  rewrite opt_seq.
  2: { intros c t H. apply seq_none. apply hd_nil. rewrite mant_love_scan. unfold scan_mant_love. rewrite <- mant_scan, mant_sign by exact H. cbn.
       destruct t as [|b [|d t]]; try reflexivity. unfold str_eqb. destruct (list_eq_dec ascii_dec _ _) as [E|_]; [|reflexivity]. injection E as -> -> ->. discriminate. }
  destruct s as [|c t].
  - rewrite seq_exp, mant_love_scan. reflexivity.
  - cbn [scan_love]. destruct (is_sign c) eqn:S.
    + rewrite map_hd, seq_exp, mant_love_scan. apply tail_exp_cons.
    + now rewrite seq_exp, mant_love_scan.
Qed.
