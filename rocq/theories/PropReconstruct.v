(** C99 mascon fields reconstructed from the time series (scripts/mascon_reconstruct.py after scripts/calc_mascon.py). *)
From Coq Require Import Reals Lra Lia String Ascii List ZifyBool ZifyNat.
From Verif Require Import Base UnitsModel UnitsProofs LoveModel GaussModel SummationModel SummationProofs GenModel DestripeModel DestripeProofs LinAlg Lstsq MasconFitModel MasconFitProofs PropMasconFit ReconstructModel.
Import ListNotations.
Close Scope Z_scope.
Open Scope R_scope.

(** ** Specification *)
(** name of mascon k after capitals and removal of degree and order *)
Definition name_of (stems : list string) (k : nat) : string := mascon_name (nth k stems ""%string).
(** k is the last mascon of its name *)
Definition last_of (stems : list string) (k : nat) : Prop := (k < List.length stems)%nat /\ forall j, (k < j < List.length stems)%nat -> name_of stems j <> name_of stems k.
(** field r holds, for every date, y Gt spread as the mascon k, where y is the mass of mascon k' up to half a unit of the tenth decimal *)
Definition shows_mass LMAX MM ocean files (mass : nat -> nat -> R) (months : list Z) (times : list R) (k k' : nat) (r : recon) : Prop :=
  r_months r = months /\ List.length (r_times r) = List.length months /\
  (forall t, (t < List.length months)%nat -> Rabs (nth t (r_times r) 0 - nth t times 0) <= 1 / 20000) /\
  (forall t, (t < List.length months)%nat -> exists y, Rabs (y - mass k' t) <= 1 / (2 * 10 ^ 10) /\
     forall cs l m, (l <= LMAX)%nat -> (m <= MM)%nat -> r_coefs r t cs l m = 10 ^ 15 * y / area_of LMAX files k * mascon_of LMAX MM ocean files k cs l m).
Definition digits (s : string) : Prop := s <> ""%string /\ forall i c, String.get i s = Some c -> digit c = true.

(** ** Names *)
Lemma append_assoc (a b c : string) : (a ++ (b ++ c) = (a ++ b) ++ c)%string.
Proof. induction a as [|x a IH]; cbn; [reflexivity|]. rewrite IH. reflexivity. Qed.
Lemma append_length (a b : string) : String.length (a ++ b) = (String.length a + String.length b)%nat.
Proof. induction a as [|x a IH]; cbn; [reflexivity|]. rewrite IH. reflexivity. Qed.
Lemma append_inj (a b c d : string) : String.length a = String.length b -> (a ++ c = b ++ d)%string -> a = b /\ c = d.
Proof.
  revert b. induction a as [|x a IH]; intros [|y b] L E; cbn in L; try discriminate; [split; auto|]. cbn in E. injection E as -> E. destruct (IH b ltac:(lia) E) as [-> ->]. auto.
Qed.
Lemma append_cancel (a b c : string) : (a ++ c = b ++ c)%string -> a = b.
Proof. intros E. apply (append_inj a b c c); [|exact E]. apply (f_equal String.length) in E. rewrite !append_length in E. lia. Qed.
Lemma append_empty (a : string) : (a ++ "" = a)%string.
Proof. induction a as [|x a IH]; cbn; [reflexivity|]. rewrite IH. reflexivity. Qed.
Lemma upper_app a b : upper (a ++ b) = (upper a ++ upper b)%string.
Proof. induction a as [|x a IH]; cbn; [reflexivity|]. rewrite IH. reflexivity. Qed.
Lemma up_idem c : up (up c) = up c.
Proof. unfold up. destruct ((97 <=? nat_of_ascii c) && (nat_of_ascii c <=? 122))%nat%bool eqn:E; [|rewrite E; reflexivity]. rewrite nat_ascii_embedding by lia. replace ((97 <=? nat_of_ascii c - 32) && (nat_of_ascii c - 32 <=? 122))%nat%bool with false by (symmetry; lia). reflexivity. Qed.
Lemma upper_idem s : upper (upper s) = upper s.
Proof. induction s as [|c s IH]; cbn; [reflexivity|]. rewrite IH, up_idem. reflexivity. Qed.
Lemma up_digit c : digit c = true -> up c = c.
Proof. unfold digit, up. intros H. replace ((97 <=? nat_of_ascii c) && (nat_of_ascii c <=? 122))%nat%bool with false by (symmetry; lia). reflexivity. Qed.
Lemma digits_cons c s : (forall i d, String.get i (String c s) = Some d -> digit d = true) -> digit c = true /\ (forall i d, String.get i s = Some d -> digit d = true).
Proof. intros H. split; [apply (H 0%nat); reflexivity|]. intros i d E. apply (H (S i)). exact E. Qed.
Lemma upper_digits s : (forall i c, String.get i s = Some c -> digit c = true) -> upper s = s.
Proof. induction s as [|c s IH]; intros H; [reflexivity|]. apply digits_cons in H. destruct H as [H1 H2]. cbn. rewrite (IH H2), (up_digit c H1). reflexivity. Qed.
(** text pending in a state *)
Definition pending (st : scan) : string := match st with Sbar => "_" | SbarL => "_L" | SdegM => "M" | _ => "" end%string.
Lemma scrub_end st : scrub_at st "" = pending st. Proof. destruct st; reflexivity. Qed.
Lemma not_digit_bar : digit "_"%char = false. Proof. reflexivity. Qed.
Lemma scrub_bar st s : scrub_at st (String "_" s) = (pending st ++ scrub_at Sbar s)%string.
Proof. destruct st; cbn [scrub_at]; try rewrite not_digit_bar; reflexivity. Qed.
Lemma scrub_app (u : string) : (forall st, scrub_at st u = pending st) -> forall s st, scrub_at st (s ++ u) = scrub_at st s.
Proof.
  intros H s. induction s as [|c s IH]; intros st; [cbn [append]; rewrite H, scrub_end; reflexivity|]. cbn [append scrub_at].
  assert (P : plain_step c (fun st' => scrub_at st' (s ++ u)) = plain_step c (fun st' => scrub_at st' s)) by (unfold plain_step; destruct (c =? "_")%char; rewrite IH; reflexivity).
  destruct st; rewrite ?P, ?IH; reflexivity.
Qed.
Lemma scrub_digits st s : st = Sdeg \/ st = Sord -> (forall i c, String.get i s = Some c -> digit c = true) -> forall u, scrub_at st (s ++ u) = scrub_at st u.
Proof.
  intros Hst. induction s as [|c s IH]; intros H u; [reflexivity|]. apply digits_cons in H. destruct H as [H1 H2]. cbn [append scrub_at]. destruct Hst as [->| ->]; rewrite H1; apply IH; exact H2.
Qed.
Lemma scrub_degree d : digits d -> forall st, scrub_at st ("_L" ++ d) = pending st.
Proof.
  intros [N H] st. change ("_L" ++ d)%string with (String "_" (String "L" d)). rewrite scrub_bar. cbn [scrub_at]. replace ("L" =? "L")%char with true by reflexivity. cbv iota.
  destruct d as [|c d]; [elim N; reflexivity|]. apply digits_cons in H. destruct H as [H1 H2]. cbn [scrub_at]. rewrite H1. rewrite <- (append_empty d), (scrub_digits Sdeg d (or_introl eq_refl) H2), scrub_end. apply append_empty.
Qed.
Lemma scrub_order d e : digits d -> digits e -> forall st, scrub_at st ("_L" ++ d ++ "M" ++ e) = pending st.
Proof.
  intros [N H] [N' H'] st. change ("_L" ++ d ++ "M" ++ e)%string with (String "_" (String "L" (d ++ String "M" e))). rewrite scrub_bar. cbn [scrub_at]. replace ("L" =? "L")%char with true by reflexivity. cbv iota.
  destruct d as [|c d]; [elim N; reflexivity|]. apply digits_cons in H. destruct H as [H1 H2]. cbn [append scrub_at]. rewrite H1. rewrite (scrub_digits Sdeg d (or_introl eq_refl) H2). cbn [scrub_at]. change (digit "M"%char) with false. replace ("M" =? "M")%char with true by reflexivity. cbv iota.
  destruct e as [|c' e]; [elim N'; reflexivity|]. apply digits_cons in H'. destruct H' as [H3 H4]. cbn [scrub_at]. rewrite H3. rewrite <- (append_empty e), (scrub_digits Sord e (or_intror eq_refl) H4), scrub_end. apply append_empty.
Qed.
Lemma scrub_id s : (forall a d b, s = (a ++ "_L" ++ String d b)%string -> digit d = false) -> scrub_at Snone s = s.
Proof.
  assert (G : forall s, (forall st, In st [Snone; Sbar; SbarL] -> (forall a d b, (pending st ++ s = a ++ "_L" ++ String d b)%string -> digit d = false) -> scrub_at st s = (pending st ++ s)%string)).
  { clear s. induction s as [|c s IH]; intros st Hst H; [rewrite scrub_end, append_empty; reflexivity|].
    assert (P : (forall a d b, (String c s = a ++ "_L" ++ String d b)%string -> digit d = false) -> plain_step c (fun st' => scrub_at st' s) = String c s).
    { intros H'. unfold plain_step. destruct (Ascii.eqb_spec c "_") as [->|N].
      - rewrite IH; [reflexivity|cbn; auto|]. exact H'.
      - rewrite IH; [reflexivity|cbn; auto|]. intros a d b E. apply (H' (String c a) d b). cbn [pending append] in E |- *. rewrite E. reflexivity. }
    assert (H' : forall a d b, (String c s = a ++ "_L" ++ String d b)%string -> digit d = false).
    { intros a d b E. apply (H (pending st ++ a)%string d b). rewrite E, append_assoc. reflexivity. }
    destruct Hst as [<-|[<-|[<-|[]]]]; cbn [scrub_at pending append].
    - apply P. exact H'.
    - destruct (Ascii.eqb_spec c "L") as [->|N].
      + rewrite IH; [reflexivity|cbn; auto|]. exact H.
      + rewrite P by exact H'. reflexivity.
    - destruct (digit c) eqn:D.
      + exfalso. specialize (H ""%string c s eq_refl). congruence.
      + rewrite P by exact H'. reflexivity. }
  intros H. rewrite G; [reflexivity|cbn; auto|exact H].
Qed.
(** capitals, degree and order do not distinguish mascons; nothing else is changed *)
Theorem C99_name : forall s d e, digits d -> digits e ->
  mascon_name (s ++ "_L" ++ d) = mascon_name s /\ mascon_name (s ++ "_l" ++ d ++ "m" ++ e) = mascon_name s /\ mascon_name (upper s) = mascon_name s /\
  ((forall a x b, upper s = (a ++ "_L" ++ String x b)%string -> digit x = false) -> mascon_name s = upper s).
Proof.
  intros s d e Hd He. unfold mascon_name. split; [|split; [|split]].
  - rewrite !upper_app, (upper_digits d (proj2 Hd)). change (upper "_L") with "_L"%string. apply scrub_app. apply scrub_degree. exact Hd.
  - rewrite !upper_app, (upper_digits d (proj2 Hd)), (upper_digits e (proj2 He)). change (upper "_l") with "_L"%string. change (upper "m") with "M"%string. apply scrub_app. apply scrub_order; assumption.
  - rewrite upper_idem. reflexivity.
  - apply scrub_id.
Qed.

(** ** Files *)
Lemma around_near x : Rabs (IZR (around x) - x) <= 1 / 2.
Proof.
  destruct (base_Int_part x) as (B1 & B2). unfold around. cbv zeta. destruct (Rlt_dec _ _); [apply Rabs_le; lra|]. destruct (Rlt_dec _ _).
  - rewrite plus_IZR. apply Rabs_le. lra.
  - destruct (Z.even _); [apply Rabs_le; lra|]. rewrite plus_IZR. apply Rabs_le. lra.
Qed.
Lemma dec_near d x : Rabs (dec d x - x) <= 1 / (2 * 10 ^ d).
Proof.
  assert (P : 0 < 10 ^ d) by (apply pow_lt; lra). unfold dec. replace (_ - x) with ((IZR (around (x * 10 ^ d)) - x * 10 ^ d) / 10 ^ d) by (field; lra). unfold Rdiv. rewrite Rabs_mult, (Rabs_pos_eq (/ 10 ^ d)) by (left; apply Rinv_0_lt_compat; exact P).
  replace (1 * / (2 * 10 ^ d)) with (1 / 2 * / 10 ^ d) by (field; lra). apply Rmult_le_compat_r; [left; apply Rinv_0_lt_compat; exact P|apply around_near].
Qed.
Lemma file_inj a b opts : series_file a opts = series_file b opts -> a = b.
Proof. unfold series_file. apply append_cancel. Qed.
Lemma out_inj a b opts w : out_file a opts w = out_file b opts w -> a = b.
Proof. unfold out_file. apply append_cancel. Qed.
Lemma save_same fs f c : save fs f c f = Some c. Proof. unfold save. rewrite String.eqb_refl. reflexivity. Qed.
Lemma save_other fs f c g : g <> f -> save fs f c g = fs g. Proof. intros N. unfold save. rewrite (proj2 (String.eqb_neq _ _) N). reflexivity. Qed.
Lemma write_last stems opts cs mass err area months times fs k : last_of stems k ->
  write_series stems opts cs mass err area months times fs (series_file (name_of stems k) (opts ++ cs)) = Some (series mass err area months times k).
Proof.
  intros [Hk HL]. unfold write_series. assert (G : forall n, (k < n <= List.length stems)%nat ->
    fold_left (fun d j => save d (series_file (mascon_name (nth j stems ""%string)) (opts ++ cs)%string) (series mass err area months times j)) (seq 0 n) fs (series_file (name_of stems k) (opts ++ cs)) = Some (series mass err area months times k)).
  { induction n as [|n IH]; intros Hn; [lia|]. rewrite seq_S, fold_left_app. cbn [plus fold_left]. destruct (Nat.eq_dec n k) as [->|N]; [apply save_same|]. rewrite save_other; [apply IH; lia|]. intros E. apply file_inj in E. apply (HL n ltac:(lia)). symmetry. exact E. }
  apply G. lia.
Qed.
Lemma write_in stems opts cs mass err area months times fs g : (forall k, (k < List.length stems)%nat -> g <> series_file (name_of stems k) (opts ++ cs)) ->
  write_series stems opts cs mass err area months times fs g = fs g.
Proof.
  intros H. unfold write_series. assert (G : forall n, (n <= List.length stems)%nat ->
    fold_left (fun d j => save d (series_file (mascon_name (nth j stems ""%string)) (opts ++ cs)%string) (series mass err area months times j)) (seq 0 n) fs g = fs g).
  { induction n as [|n IH]; intros Hn; [reflexivity|]. rewrite seq_S, fold_left_app. cbn [plus fold_left]. rewrite save_other; [apply IH; lia|]. apply H. lia. }
  apply G. lia.
Qed.
Lemma last_ex stems : forall k, (k < List.length stems)%nat -> exists j, last_of stems j /\ name_of stems j = name_of stems k /\ (k <= j)%nat.
Proof.
  intros k Hk. assert (G : forall d k, (List.length stems - k = d)%nat -> (k < List.length stems)%nat -> exists j, last_of stems j /\ name_of stems j = name_of stems k /\ (k <= j)%nat).
  { clear k Hk. induction d as [d IH] using lt_wf_ind. intros k Hd Hk.
    assert (D : (exists j, (k < j < List.length stems)%nat /\ name_of stems j = name_of stems k) \/ (forall j, (k < j < List.length stems)%nat -> name_of stems j <> name_of stems k)).
    { assert (X : forall n, (exists j, (k < j < n)%nat /\ name_of stems j = name_of stems k) \/ (forall j, (k < j < n)%nat -> name_of stems j <> name_of stems k)).
      { induction n as [|n [(j & A & B)|A]]; [right; intros; lia|left; exists j; split; [lia|exact B]|]. destruct (string_dec (name_of stems n) (name_of stems k)) as [E|E].
        - destruct (le_lt_dec n k); [right; intros; lia|left; exists n; split; [lia|exact E]].
        - right. intros j Hj. destruct (Nat.eq_dec j n) as [->|]; [exact E|apply A; lia]. }
      apply X. }
    destruct D as [(j & A & B)|A].
    - destruct (IH (List.length stems - j)%nat ltac:(lia) j eq_refl ltac:(lia)) as (i & P & Q & R). exists i. split; [exact P|]. split; [congruence|lia].
    - exists k. split; [split; assumption|]. split; [reflexivity|lia]. }
  apply (G _ k eq_refl Hk).
Qed.
Lemma loop_ok LMAX MM ocean opts w fs : forall todo acc,
  (forall p, In p todo -> exists rows, fs (series_file (mascon_name (fst p)) opts) = Some rows /\ (2 <= List.length rows)%nat) ->
  exists o, reconstruct_loop LMAX MM ocean opts w fs todo acc = Ok (o, (snd acc ++ map (fun p => out_file (mascon_name (fst p)) opts w) todo)%list) /\
    (forall g, (forall p, In p todo -> g <> out_file (mascon_name (fst p)) opts w) -> o g = fst acc g) /\
    (forall j stem Y, nth_error todo j = Some (stem, Y) -> (forall j' p, (j < j')%nat -> nth_error todo j' = Some p -> mascon_name (fst p) <> mascon_name stem) ->
      exists rows r, fs (series_file (mascon_name stem) opts) = Some rows /\ reconstruct_one LMAX MM ocean Y rows = Ok r /\ o (out_file (mascon_name stem) opts w) = Some r).
Proof.
  induction todo as [|[stem Y] todo IH]; intros acc H; [exists (fst acc); split; [cbn; rewrite app_nil_r; destruct acc; reflexivity|]; split; [auto|]; intros [|j]; discriminate|].
  cbn [reconstruct_loop]. cbv zeta. destruct (H _ (or_introl eq_refl)) as (rows & E & L). cbn [fst] in E. rewrite E. unfold reconstruct_one at 1. replace (List.length rows <=? 1)%nat with false by lia. cbn [bind]. set (r := mkrecon _ _ _).
  destruct (IH (put_out (fst acc) (out_file (mascon_name stem) opts w) r, (snd acc ++ [out_file (mascon_name stem) opts w])%list) ltac:(intros p Hp; apply H; right; exact Hp)) as (o & EO & OO & OL). exists o. split; [|split].
  - rewrite EO. cbn [snd map fst]. rewrite <- app_assoc. reflexivity.
  - intros g Hg. rewrite OO by (intros p Hp; apply Hg; right; exact Hp). cbn [fst]. unfold put_out. pose proof (Hg _ (or_introl eq_refl)) as X. cbn [fst] in X. rewrite (proj2 (String.eqb_neq _ _) X). reflexivity.
  - intros [|j] stem' Y' EJ HJ.
    + cbn in EJ. injection EJ as <- <-. exists rows, r. split; [exact E|]. split; [unfold reconstruct_one; replace (List.length rows <=? 1)%nat with false by lia; reflexivity|].
      rewrite OO; [cbn [fst]; unfold put_out; rewrite String.eqb_refl; reflexivity|]. intros p Hp EQ. apply out_inj in EQ. apply In_nth_error in Hp. destruct Hp as [q Hq]. apply (HJ (S q) p ltac:(lia) Hq). symmetry. exact EQ.
    + cbn in EJ. apply (OL j stem' Y' EJ). intros j' p Hj' Ep. apply (HJ (S j') p ltac:(lia)). exact Ep.
Qed.
Lemma combine_nth_error (stems : list string) (files : list coefs) j : List.length stems = List.length files -> (j < List.length stems)%nat ->
  nth_error (combine stems files) j = Some (nth j stems ""%string, nth j files zero_coefs).
Proof. intros L Hj. rewrite <- combine_nth by exact L. apply nth_error_nth'. rewrite combine_length. lia. Qed.
Lemma series_len mass err area months times k : List.length (series mass err area months times k) = List.length months.
Proof. unfold series. rewrite map_length, seq_length. reflexivity. Qed.
Lemma map_seq_nth (months : list Z) : map (fun t => nth t months 0%Z) (seq 0 (List.length months)) = months.
Proof. apply (nth_ext _ _ 0%Z 0%Z); rewrite map_length, seq_length; [reflexivity|]. intros i Hi. rewrite (nth_indep _ 0%Z (nth 0 months 0%Z)) by (rewrite map_length, seq_length; exact Hi). rewrite (map_nth (fun t => nth t months 0%Z)), seq_nth by exact Hi. reflexivity. Qed.
Lemma series_nth mass err area months times k t : (t < List.length months)%nat ->
  nth_error (series mass err area months times k) t = Some (nth t months 0%Z, dec 4 (nth t times 0), dec 10 (mass k t), dec 10 (err k), dec 5 (area k)).
Proof. intros H. unfold series. rewrite nth_error_map. rewrite (nth_error_nth' (seq 0 (List.length months)) 0%nat) by (rewrite seq_length; exact H). rewrite seq_nth by exact H. reflexivity. Qed.
Lemma nth_map_error {A B} (f : A -> B) l t a d : nth_error l t = Some a -> nth t (map f l) d = f a.
Proof. intros E. apply nth_error_nth. rewrite nth_error_map, E. reflexivity. Qed.
Lemma recon_shows LMAX MM ocean files mass err area months times k k' r :
  reconstruct_one LMAX MM ocean (nth k files zero_coefs) (series mass err area months times k') = Ok r -> shows_mass LMAX MM ocean files mass months times k k' r.
Proof.
  unfold reconstruct_one. cbv zeta. destruct (_ <=? 1)%nat; [discriminate|]. intros E. injection E as <-. unfold shows_mass. cbn [r_months r_times r_coefs]. split; [|split; [|split]].
  - unfold series. rewrite map_map. unfold l_month. cbn [fst snd]. apply map_seq_nth.
  - rewrite map_length. apply series_len.
  - intros t Ht. rewrite (nth_map_error _ _ _ _ _ (series_nth mass err area months times k' t Ht)). unfold l_time. cbn [fst snd]. eapply Rle_trans; [apply dec_near|]. simpl. lra.
  - intros t Ht. exists (dec 10 (mass k' t)). split; [apply dec_near|]. intros cs l m Hl Hm. replace ((l <=? LMAX) && (m <=? MM))%nat%bool with true by (symmetry; lia).
    rewrite (nth_map_error _ _ _ _ _ (series_nth mass err area months times k' t Ht)). unfold l_mass. cbn [fst snd]. reflexivity.
Qed.

(** ** C99 *)
(** reading back what calc_mascon wrote: the field of the last mascon of each name *)
Theorem C99_fields : forall LMAX MMAX ocean opts window fs o stems files mass err area months times, let MM := order_of MMAX LMAX in
  List.length stems = List.length files -> (2 <= List.length months)%nat ->
  exists o', mascon_reconstruct LMAX MMAX ocean opts window (write_series stems opts "" mass err area months times fs) stems files o = Ok (o', map (fun s => out_file (mascon_name s) opts window) stems) /\
    (forall k, (k < List.length stems)%nat -> (forall j, (j < List.length stems)%nat -> j <> k -> name_of stems j <> name_of stems k) ->
      exists r, o' (out_file (name_of stems k) opts window) = Some r /\ shows_mass LMAX MM ocean files mass months times k k r) /\
    (forall k, last_of stems k -> exists r, o' (out_file (name_of stems k) opts window) = Some r /\ shows_mass LMAX MM ocean files mass months times k k r).
Proof.
  intros LMAX MMAX ocean opts window fs o stems files mass err area months times MM HL HM. unfold mascon_reconstruct. fold (order_of MMAX LMAX). fold MM.
  set (fs' := write_series stems opts "" mass err area months times fs).
  assert (R : forall k, (k < List.length stems)%nat -> exists j, last_of stems j /\ name_of stems j = name_of stems k /\ fs' (series_file (name_of stems k) opts) = Some (series mass err area months times j)).
  { intros k Hk. destruct (last_ex stems k Hk) as (j & A & B & _). exists j. split; [exact A|]. split; [exact B|]. rewrite <- B. unfold fs'. pose proof (write_last stems opts "" mass err area months times fs j A) as W. rewrite append_empty in W. exact W. }
  destruct (loop_ok LMAX MM ocean opts window fs' (combine stems files) (o, [])) as (o' & E & _ & OL).
  { intros [s Y] Hp. apply In_nth_error in Hp. destruct Hp as [k Hk]. assert (Lk : (k < List.length stems)%nat) by (pose proof (proj1 (nth_error_Some (combine stems files) k) ltac:(congruence)) as X; rewrite combine_length in X; lia).
    rewrite combine_nth_error in Hk by assumption. injection Hk as <- <-. destruct (R k Lk) as (j & _ & _ & F). exists (series mass err area months times j). split; [exact F|]. rewrite series_len. exact HM. }
  exists o'. split.
  - rewrite E. cbn [snd app]. f_equal. f_equal. clear - HL. revert files HL. induction stems as [|s stems IH]; intros [|f files] HL; cbn in HL; try discriminate; [reflexivity|]. cbn [combine map fst]. rewrite IH by lia. reflexivity.
  - assert (G : forall k, last_of stems k -> exists r, o' (out_file (name_of stems k) opts window) = Some r /\ shows_mass LMAX MM ocean files mass months times k k r).
    { intros k [Hk Hl]. destruct (OL k _ _ (combine_nth_error stems files k HL Hk)) as (rows & r & F & RO & OO).
      { intros j' p Hj Ep. assert (Lj : (j' < List.length stems)%nat) by (pose proof (proj1 (nth_error_Some (combine stems files) j') ltac:(congruence)) as X; rewrite combine_length in X; lia).
        rewrite combine_nth_error in Ep by assumption. injection Ep as <-. apply Hl. lia. }
      exists r. split; [exact OO|]. pose proof (write_last stems opts "" mass err area months times fs k (conj Hk Hl)) as W. rewrite append_empty in W. fold fs' in W. unfold name_of in W. rewrite F in W. injection W as ->. eapply recon_shows. exact RO. }
    split; [|exact G]. intros k Hk Hu. apply G. split; [exact Hk|]. intros j Hj. apply Hu; lia.
Qed.
(** mascons whose names differ only in capitals, degree or order share one file: the mass of the last one is used for all of them, and the index lists that field once for each *)
Theorem C99_shared_name_refuted : forall LMAX MMAX ocean opts window fs o stems files mass err area months times i k, let MM := order_of MMAX LMAX in
  List.length stems = List.length files -> (2 <= List.length months)%nat -> (i < List.length stems)%nat -> last_of stems k -> name_of stems i = name_of stems k ->
  exists o' index r, mascon_reconstruct LMAX MMAX ocean opts window (write_series stems opts "" mass err area months times fs) stems files o = Ok (o', index) /\
    nth i index ""%string = nth k index ""%string /\ o' (nth i index ""%string) = Some r /\ shows_mass LMAX MM ocean files mass months times k k r.
Proof.
  intros LMAX MMAX ocean opts window fs o stems files mass err area months times i k MM HL HM Hi Hk N.
  destruct (C99_fields LMAX MMAX ocean opts window fs o stems files mass err area months times HL HM) as (o' & E & _ & G). destruct (G k Hk) as (r & A & B). exists o'. eexists. exists r. split; [exact E|].
  assert (X : forall q, (q < List.length stems)%nat -> nth q (map (fun s => out_file (mascon_name s) opts window) stems) ""%string = out_file (name_of stems q) opts window).
  { intros q Hq. rewrite (nth_indep _ ""%string (out_file (mascon_name "") opts window)) by (rewrite map_length; exact Hq). exact (map_nth (fun s => out_file (mascon_name s) opts window) stems ""%string q). }
  rewrite !X by (try exact Hi; exact (proj1 Hk)). rewrite N. auto.
Qed.
(** one month only: fails *)
Theorem C99_one_month_refuted : forall LMAX MMAX ocean opts window fs o stems files mass err area months times,
  List.length stems = List.length files -> (0 < List.length stems)%nat -> (List.length months <= 1)%nat ->
  mascon_reconstruct LMAX MMAX ocean opts window (write_series stems opts "" mass err area months times fs) stems files o = Err IndexError.
Proof.
  intros LMAX MMAX ocean opts window fs o stems files mass err area months times HL HS HM. unfold mascon_reconstruct. set (fs' := write_series stems opts "" mass err area months times fs). destruct (last_ex stems 0 HS) as (j & A & B & _).
  assert (F : fs' (series_file (name_of stems 0) opts) = Some (series mass err area months times j)).
  { rewrite <- B. unfold fs'. pose proof (write_last stems opts "" mass err area months times fs j A) as W. rewrite append_empty in W. exact W. }
  clearbody fs'. destruct stems as [|s stems]; [cbn in HS; lia|]. destruct files as [|f files]; [discriminate|]. cbn [combine reconstruct_loop]. unfold name_of in F. cbn [nth] in F. rewrite F. unfold reconstruct_one. rewrite series_len. replace (_ <=? 1)%nat with true by lia. reflexivity.
Qed.
(** time series computed only with reconstructed fields removed (file names with LEAKAGE) are not found *)
Theorem C99_leakage_file : forall LMAX MMAX ocean pre c window fs o stems files mass err area months times, let opts := (pre ++ String c "")%string in
  List.length stems = List.length files -> (0 < List.length stems)%nat -> c <> "E"%char -> fs (series_file (name_of stems 0) opts) = None ->
  mascon_reconstruct LMAX MMAX ocean opts window (write_series stems opts "_LEAKAGE" mass err area months times fs) stems files o = Err FileNotFound.
Proof.
  intros LMAX MMAX ocean pre c window fs o stems files mass err area months times opts HL HS HE HF. unfold mascon_reconstruct. set (fs' := write_series _ _ _ _ _ _ _ _ _).
  assert (F : fs' (series_file (name_of stems 0) opts) = None).
  { unfold fs'. rewrite write_in; [exact HF|]. intros k Hk E. unfold series_file, opts in E.
    assert (X : ((name_of stems 0 ++ pre) ++ String c ".txt" = (name_of stems k ++ pre ++ String c "_LEAKAG") ++ String "E" ".txt")%string).
    { transitivity (name_of stems 0 ++ (pre ++ String c "") ++ ".txt")%string; [rewrite <- !append_assoc; reflexivity|]. rewrite E. rewrite <- !append_assoc. reflexivity. }
    apply append_inj in X; [|apply (f_equal String.length) in X; rewrite !append_length in X; rewrite !append_length; cbn [String.length] in X |- *; lia]. destruct X as [_ X]. injection X as X. contradiction. }
  clearbody fs'. destruct stems as [|s stems]; [cbn in HS; lia|]. destruct files as [|f files]; [discriminate|]. cbn [combine reconstruct_loop]. unfold name_of in F. cbn [nth] in F. rewrite F. reflexivity.
Qed.

(** sum of the fields of some of the mascons *)
Lemma rsum_pick p a (f : nat -> R) : (a < p)%nat -> rsum p (fun k => if (k =? a)%nat then f k else 0) = f a.
Proof. intros H. rewrite (rsum_ext p _ (fun k => LinAlg.delta k a * f k)); [apply rsum_delta; exact H|]. intros k _. unfold LinAlg.delta. destruct (k =? a)%nat; ring. Qed.
Lemma sum_ok LMAX MM ocean files mass months times o (F : nat -> string) : forall ks, NoDup ks ->
  (forall k, In k ks -> (k < List.length files)%nat /\ exists r, o (F k) = Some r /\ shows_mass LMAX MM ocean files mass months times k k r) ->
  exists s, construct_sum LMAX MM (List.length months) o (map F ks) = Ok s /\
    forall t, (t < List.length months)%nat -> exists y, (forall k, In k ks -> Rabs (y k - mass k t) <= 1 / (2 * 10 ^ 10)) /\ (forall k, ~ In k ks -> y k = 0) /\
      forall cs l m, (l <= LMAX)%nat -> (m <= MM)%nat -> s t cs l m = mixture LMAX MM ocean files (fun k => 10 ^ 15 * y k / area_of LMAX files k) cs l m.
Proof.
  induction ks as [|a ks IH]; intros ND H.
  - eexists. split; [reflexivity|]. intros t Ht. exists (fun _ => 0). split; [intros k []|]. split; [reflexivity|]. intros cs l m _ _. unfold mixture. rewrite (rsum_ext _ _ (fun _ => 0)); [rewrite rsum_zero; reflexivity|]. intros k _. unfold Rdiv. ring.
  - inversion ND as [|? ? NI ND']; subst. destruct (IH ND' ltac:(intros k Hk; apply H; right; exact Hk)) as (s & E & Y). destruct (H a (or_introl eq_refl)) as (La & r & Er & RM & _ & _ & RC).
    cbn [map construct_sum]. rewrite Er, RM, Nat.eqb_refl. cbn [negb]. rewrite E. cbn [bind]. eexists. split; [reflexivity|]. intros t Ht. destruct (Y t Ht) as (y & Y1 & Y2 & Y3). destruct (RC t Ht) as (ya & A1 & A2).
    exists (fun k => if (k =? a)%nat then ya else y k). split; [|split].
    + intros k [->|Hk]; [rewrite Nat.eqb_refl; exact A1|]. destruct (Nat.eqb_spec k a) as [->|]; [contradiction|]. apply Y1. exact Hk.
    + intros k Hk. destruct (Nat.eqb_spec k a) as [->|]; [elim Hk; left; reflexivity|]. apply Y2. intros Hk'. apply Hk. right. exact Hk'.
    + intros cs l m Hl Hm. replace ((l <=? LMAX) && (m <=? MM))%nat%bool with true by (symmetry; lia). rewrite (A2 cs l m Hl Hm), (Y3 cs l m Hl Hm). unfold mixture.
      rewrite <- (rsum_pick (List.length files) a (fun k => 10 ^ 15 * ya / area_of LMAX files k * mascon_of LMAX MM ocean files k cs l m) La), <- rsum_plus. apply rsum_ext. intros k _.
      destruct (Nat.eqb_spec k a) as [->|]; [|ring]. rewrite (Y2 a NI). unfold Rdiv. ring.
Qed.
Definition distinct_names (stems : list string) : Prop := forall j k, (j < List.length stems)%nat -> (k < List.length stems)%nat -> name_of stems j = name_of stems k -> j = k.
Lemma index_nth stems opts window q : (q < List.length stems)%nat -> nth q (map (fun s => out_file (mascon_name s) opts window) stems) ""%string = out_file (name_of stems q) opts window.
Proof. intros Hq. rewrite (nth_indep _ ""%string (out_file (mascon_name "") opts window)) by (rewrite map_length; exact Hq). exact (map_nth (fun s => out_file (mascon_name s) opts window) stems ""%string q). Qed.
Lemma chosen_ok LMAX MMAX ocean opts window fs o stems files mass err area months times ks : let MM := order_of MMAX LMAX in
  List.length stems = List.length files -> (2 <= List.length months)%nat -> distinct_names stems -> NoDup ks -> (forall k, In k ks -> (k < List.length files)%nat) ->
  exists o' index s, mascon_reconstruct LMAX MMAX ocean opts window (write_series stems opts "" mass err area months times fs) stems files o = Ok (o', index) /\
    construct_sum LMAX MM (List.length months) o' (map (fun k => nth k index ""%string) ks) = Ok s /\ List.length index = List.length stems /\
    forall t, (t < List.length months)%nat -> exists y, (forall k, In k ks -> Rabs (y k - mass k t) <= 1 / (2 * 10 ^ 10)) /\ (forall k, ~ In k ks -> y k = 0) /\
      forall cs l m, (l <= LMAX)%nat -> (m <= MM)%nat -> s t cs l m = mixture LMAX MM ocean files (fun k => 10 ^ 15 * y k / area_of LMAX files k) cs l m.
Proof.
  intros MM HL HM HD ND HK. destruct (C99_fields LMAX MMAX ocean opts window fs o stems files mass err area months times HL HM) as (o' & E & G & _). fold MM in G. exists o'. eexists.
  destruct (sum_ok LMAX MM ocean files mass months times o' (fun k => nth k (map (fun s => out_file (mascon_name s) opts window) stems) ""%string) ks ND) as (s & S1 & S2).
  { intros k Hk. specialize (HK k Hk). split; [exact HK|]. rewrite index_nth by lia. apply G; [lia|]. intros j Hj N EQ. apply N. apply HD; [exact Hj|lia|exact EQ]. }
  exists s. split; [exact E|]. split; [exact S1|]. split; [apply map_length|exact S2].
Qed.
Lemma scale_back (c y a x : R) : a <> 0 -> c <> 0 -> (c * y / a - x) * a = c * (y - x * a / c).
Proof. intros. field. auto. Qed.
Lemma unscale (c y a : R) : a <> 0 -> c <> 0 -> c * y / a * a / c = y.
Proof. intros. field. auto. Qed.
Lemma half_unit : 10 ^ 15 * (1 / (2 * 10 ^ 10)) = 50000.
Proof. replace (10 ^ 15) with (10 ^ 10 * 10 ^ 5) by (rewrite <- pow_add; reflexivity). assert (N : 10 ^ 10 <> 0) by (apply pow_nonzero; lra). generalize dependent (10 ^ 10). intros b N. replace (10 ^ 5) with 100000 by (simpl; ring). field. exact N. Qed.
(** the sum of all reconstructed fields is the least squares fit of the mascons to the data, up to the rounding of the text files: amplitudes (cm of water) within 50000 g / area *)
Theorem C99_best_fit : forall LMIN LMAX MMAX kl RAD ocean files SOLVER grace gia remove delta w opts window fs o stems months times, let MM := order_of MMAX LMAX in
  (MM <= LMAX)%nat -> (LMIN <= MM + 1)%nat -> (LMIN <= LMAX)%nat -> lstsq_solver SOLVER -> smoothing RAD LMAX = Ok w ->
  List.length stems = List.length files -> (2 <= List.length months)%nat -> distinct_names stems -> (forall k, (k < List.length files)%nat -> area_of LMAX files k <> 0) ->
  exists mass err area o' index s, calc_mascon LMIN LMAX MMAX kl RAD ocean files 1 SOLVER grace gia remove (fun _ => zero_coefs) delta = Ok (mass, err, area) /\
    mascon_reconstruct LMAX MMAX ocean opts window (write_series stems opts "" mass err area months times fs) stems files o = Ok (o', index) /\
    construct_sum LMAX MM (List.length months) o' index = Ok s /\
    forall t, (t < List.length months)%nat -> exists x z,
      (forall v, misfit LMIN LMAX MM w kl ocean files (corrected grace gia remove (fun _ => zero_coefs) t) x <= misfit LMIN LMAX MM w kl ocean files (corrected grace gia remove (fun _ => zero_coefs) t) v) /\
      (forall k, (k < List.length files)%nat -> Rabs (z k - x k) * Rabs (area_of LMAX files k) <= 50000) /\
      (forall cs l m, (l <= LMAX)%nat -> (m <= MM)%nat -> s t cs l m = mixture LMAX MM ocean files z cs l m).
Proof.
  intros LMIN LMAX MMAX kl RAD ocean files SOLVER grace gia remove delta w opts window fs o stems months times MM H1 H2 H3 HS HW HL HM HD HA.
  destruct (C93_least_squares LMIN LMAX MMAX kl RAD ocean files SOLVER grace gia remove (fun _ => zero_coefs) delta w H1 H2 H3 HS HW) as (mass & err & area & E & M). fold MM in M.
  destruct (chosen_ok LMAX MMAX ocean opts window fs o stems files mass err area months times (seq 0 (List.length files)) HL HM HD (seq_NoDup _ _) ltac:(intros k Hk; apply in_seq in Hk; lia)) as (o' & index & s & R1 & R2 & LI & R3). fold MM in R2, R3.
  exists mass, err, area, o', index, s. split; [exact E|]. split; [exact R1|]. split.
  { rewrite <- R2. f_equal. apply (nth_ext _ _ ""%string ""%string); [rewrite map_length, seq_length; lia|]. intros i Hi. rewrite (nth_indep (map _ _) ""%string (nth 0 index ""%string)) by (rewrite map_length, seq_length; lia).
    rewrite (map_nth (fun k => nth k index ""%string)), seq_nth by lia. reflexivity. }
  intros t Ht. destruct (M t) as (x & X1 & X2 & _). destruct (R3 t Ht) as (y & Y1 & _ & Y3). exists x, (fun k => 10 ^ 15 * y k / area_of LMAX files k). split; [exact X2|]. split; [|exact Y3].
  intros k Hk. specialize (HA k Hk). rewrite <- Rabs_mult. replace ((10 ^ 15 * y k / area_of LMAX files k - x k) * area_of LMAX files k) with (10 ^ 15 * (y k - mass k t)) by (rewrite X1; symmetry; apply scale_back; [exact HA|apply pow_nonzero; lra]).
  rewrite Rabs_mult, (Rabs_pos_eq (10 ^ 15)) by (left; apply pow_lt; lra). assert (B : Rabs (y k - mass k t) <= 1 / (2 * 10 ^ 10)) by (apply Y1, in_seq; lia). apply (Rmult_le_compat_l (10 ^ 15)) in B; [|left; apply pow_lt; lra]. eapply Rle_trans; [exact B|]. rewrite half_unit. apply Rle_refl.
Qed.
(** a second run with the reconstructed fields of some mascons removed: those mascons show no mass, the others show the same as before *)
Theorem C99_removed : forall LMIN LMAX MMAX kl RAD ocean files SOLVER grace gia remove delta w opts window fs o stems months times ks, let MM := order_of MMAX LMAX in
  (MM <= LMAX)%nat -> (LMIN <= MM + 1)%nat -> (LMIN <= LMAX)%nat -> lstsq_solver SOLVER -> smoothing RAD LMAX = Ok w ->
  (forall l, (LMIN <= l <= LMAX)%nat -> mass_weight w kl l <> 0) -> no_mixture LMIN LMAX MM ocean files ->
  List.length stems = List.length files -> (2 <= List.length months)%nat -> distinct_names stems -> (forall k, (k < List.length files)%nat -> area_of LMAX files k <> 0) ->
  NoDup ks -> (forall k, In k ks -> (k < List.length files)%nat) ->
  exists mass err area o' index s mass2 err2 area2, calc_mascon LMIN LMAX MMAX kl RAD ocean files 1 SOLVER grace gia remove (fun _ => zero_coefs) delta = Ok (mass, err, area) /\
    mascon_reconstruct LMAX MMAX ocean opts window (write_series stems opts "" mass err area months times fs) stems files o = Ok (o', index) /\
    construct_sum LMAX MM (List.length months) o' (map (fun k => nth k index ""%string) ks) = Ok s /\
    calc_mascon LMIN LMAX MMAX kl RAD ocean files 1 SOLVER grace gia remove s delta = Ok (mass2, err2, area2) /\
    forall t k, (t < List.length months)%nat -> (k < List.length files)%nat ->
      (In k ks -> Rabs (mass2 k t) <= 1 / (2 * 10 ^ 10)) /\ (~ In k ks -> mass2 k t = mass k t).
Proof.
  intros LMIN LMAX MMAX kl RAD ocean files SOLVER grace gia remove delta w opts window fs o stems months times ks MM H1 H2 H3 HS HW Hw Hi HL HM HD HA ND HK.
  destruct (C93_least_squares LMIN LMAX MMAX kl RAD ocean files SOLVER grace gia remove (fun _ => zero_coefs) delta w H1 H2 H3 HS HW) as (mass & err & area & E & _).
  destruct (chosen_ok LMAX MMAX ocean opts window fs o stems files mass err area months times ks HL HM HD ND HK) as (o' & index & s & R1 & R2 & _ & R3). fold MM in R2, R3.
  destruct (C93_least_squares LMIN LMAX MMAX kl RAD ocean files SOLVER grace gia remove s delta w H1 H2 H3 HS HW) as (mass2 & err2 & area2 & E2 & _).
  exists mass, err, area, o', index, s, mass2, err2, area2. split; [exact E|]. split; [exact R1|]. split; [exact R2|]. split; [exact E2|]. intros t k Ht Hk. destruct (R3 t Ht) as (y & Y1 & Y2 & Y3).
  set (mix := mixture LMAX MM ocean files (fun k => 10 ^ 15 * y k / area_of LMAX files k)) in *.
  destruct (C93_recovers LMIN LMAX MMAX kl RAD ocean files SOLVER (fun _ => mix) (fun _ => zero_coefs) (fun _ => zero_coefs) (fun _ => zero_coefs) delta w H1 H2 H3 HS HW Hw Hi) as (mass3 & err3 & area3 & E3 & M3). fold MM in M3.
  specialize (M3 t (fun k => 10 ^ 15 * y k / area_of LMAX files k)). fold mix in M3. specialize (M3 ltac:(intros; unfold corrected, zero_coefs; ring) k Hk).
  pose proof (C93_linear LMIN LMAX MMAX kl RAD ocean files 1 SOLVER grace gia remove (fun _ => zero_coefs) delta (fun _ => mix) (fun _ => zero_coefs) (fun _ => zero_coefs) (fun _ => zero_coefs) delta grace gia remove s delta
    mass err area mass3 err3 area3 mass2 err2 area2 1 (-1) t t t H1 H2 E E3 E2) as Lin. fold MM in Lin. specialize (Lin ltac:(intros cs l m (R0 & R4 & R5 & _); unfold corrected, zero_coefs; rewrite (Y3 cs l m ltac:(lia) R5); ring) k).
  assert (D : mass2 k t = mass k t - y k). { rewrite Lin, M3, unscale; [ring|apply HA; exact Hk|apply pow_nonzero; lra]. }
  rewrite D. split.
  - intros I0. rewrite <- Rabs_Ropp. replace (- (mass k t - y k)) with (y k - mass k t) by ring. apply Y1. exact I0.
  - intros N. rewrite (Y2 k N). ring.
Qed.
(** with redistribution over the ocean every reconstructed field has no total mass *)
Theorem C99_conserves : forall LMAX MMAX (oc : coefs) opts window fs o stems files mass err area months times k t, oc false 0%nat 0%nat <> 0 ->
  List.length stems = List.length files -> (2 <= List.length months)%nat -> last_of stems k -> (t < List.length months)%nat ->
  exists o' index r, mascon_reconstruct LMAX MMAX (Some oc) opts window (write_series stems opts "" mass err area months times fs) stems files o = Ok (o', index) /\
    o' (nth k index ""%string) = Some r /\ r_coefs r t false 0%nat 0%nat = 0.
Proof.
  intros LMAX MMAX oc opts window fs o stems files mass err area months times k t HO HL HM Hk Ht. destruct (C99_fields LMAX MMAX (Some oc) opts window fs o stems files mass err area months times HL HM) as (o' & E & _ & G).
  destruct (G k Hk) as (r & A & _ & _ & _ & C). exists o'. eexists. exists r. split; [exact E|]. rewrite index_nth by exact (proj1 Hk). split; [exact A|]. destruct (C t Ht) as (y & _ & Y). rewrite (Y false 0%nat 0%nat) by lia.
  rewrite (proj1 (C93_conserves LMAX (order_of MMAX LMAX) oc files k HO)). ring.
Qed.
(** two mascons of C93_nonvacuous under distinct names; two file names of one mascon *)
Example C99_nonvacuous : distinct_names ["greenland_L60"; "Alaska_L60M30"]%string /\ (forall k, (k < 2)%nat -> area_of 2 two_mascons k <> 0) /\ last_of ["alaska_L60"; "Greenland"; "Alaska_L30"]%string 2 /\
  name_of ["alaska_L60"; "Greenland"; "Alaska_L30"]%string 0 = "ALASKA"%string /\ digits "60".
Proof.
  split; [|split; [|split; [|split]]].
  - intros [|[|j]] [|[|k]] Hj Hk E; cbn in Hj, Hk; try lia; vm_compute in E; discriminate.
  - destruct C93_nonvacuous as (_ & _ & _ & _ & _ & _ & A). intros [|[|k]] Hk; try lia; exact A.
  - split; [cbn [List.length]; lia|]. intros j Hj. cbn [List.length] in Hj. lia.
  - reflexivity.
  - split; [discriminate|]. intros [|[|[|i]]] c E; cbn in E; try discriminate; injection E as <-; reflexivity.
Qed.
