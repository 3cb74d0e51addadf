(** C115, fourth part: harmonics files down to the characters. *)
From Coq Require Import Reals Ascii String Lra Lia.
From Verif Require Import Base Arr DestripeModel UtilModel HarmModel HarmProofs HarmProofs3 TextModel TextProofs PropText PropText2 PropText3.
Close Scope Z_scope.
Close Scope R_scope.
Open Scope nat_scope.
Open Scope list_scope.

Lemma blanks_gap f k : gap f (blanks k).
Proof. apply gap_b_ok. unfold gap_b. apply andb_true_intro. split; [|destruct k; [reflexivity|destruct f; reflexivity]]. apply forallb_forall. intros c H. apply repeat_spec in H. now subst. Qed.
Lemma blank_gap f k : gap f (blank :: blanks k).
Proof. exact (blanks_gap f (S k)). Qed.
Lemma end_gap f : gap f []. Proof. apply gap_b_ok. reflexivity. Qed.
Definition fields (date : bool) (l m : nat) (c s t : R) : list decimal := [dec_d l; dec_d m; dec_e 12 c; dec_e 12 s] ++ (if date then [dec_f 4 t] else []).
Lemma text_line_laid date l m c s t : laid true true (fields date l m c s t) (text_line date l m c s t).
Proof.
  unfold text_line, fields. rewrite !fmt_d_eq, !fmt_e_eq, fmt_f_eq. cbn [app].
  repeat rewrite <- app_assoc. apply laid_number; [apply blanks_gap|apply valid_d|now left|].
  apply (laid_number true false (blank :: blanks _)); [apply blank_gap|apply valid_d|right; left; discriminate|].
  apply (laid_number true false (blank :: blanks _)); [apply blank_gap|apply valid_e|right; left; discriminate|].
  apply (laid_number true false (blank :: blanks _)); [apply blank_gap|apply valid_e|right; left; discriminate|].
  destruct date; [|apply laid_end, end_gap].
  rewrite <- (app_nil_r (render (dec_f 4 t))). rewrite app_comm_cons.
  apply (laid_number true false (blank :: blanks _)); [apply blank_gap|apply valid_f|right; left; discriminate|]. apply laid_end, end_gap.
Qed.
Lemma as_index_ok n : as_index (render (dec_d n)) = Ok n.
Proof.
  unfold as_index, dec_d, render. cbn [d_sign d_int d_frac d_exp sign_text app]. rewrite !app_nil_r. destruct (int_ok (Z.of_nat n)) as (A & B & _); [lia|].
  pose proof (proj1 (proj2 (proj2 C115_values) None _ A B)) as E. cbn [sign_text app] in E. rewrite E, int_value by lia. cbn [bind]. destruct (Z.ltb_spec (Z.of_nat n) 0); [lia|]. now rewrite Nat2Z.id.
Qed.
Lemma scan_line_ok date l m c s t : scan_line (text_line date l m c s t) = Ok (l, m, render (dec_e 12 c), render (dec_e 12 s), if date then [render (dec_f 4 t)] else []).
Proof.
  unfold scan_line. rewrite (C115_numbers_found _ _ _ (text_line_laid date l m c s t)). unfold fields. cbn [map app]. rewrite !as_index_ok. cbn [bind]. now destruct date.
Qed.
Definition rd (x : R) : R := value (dec_e 12 x).
Definition rt (x : R) : R := value (dec_f 4 x).
Lemma fortran_ok x : fortran_float (render (dec_e 12 x)) = Ok (rd x).
Proof. apply (proj1 (proj2 C115_values)), valid_e. Qed.
Lemma mapM_map_ok {A B C} (g : A -> B) (f : B -> res C) (h : A -> C) l : (forall x, f (g x) = Ok (h x)) -> mapM f (map g l) = Ok (map h l).
Proof. intros H. induction l as [|x l IH]; cbn [map mapM]; [reflexivity|]. now rewrite H, IH. Qed.
Lemma lm_loop_nonempty L M : M <= L -> lm_loop L M <> [].
Proof. intros H E. assert (I0 : In (0, 0) (lm_loop L M)) by (apply lm_loop_in; lia). rewrite E in I0. exact I0. Qed.
Lemma from_lines grace date (c s : nat * nat -> R) t (ps : list (nat * nat)) : ps <> [] ->
  from_text grace date (map (fun p => text_line date (fst p) (snd p) (c p) (s p) t) ps) =
  from_ascii grace date (map (fun p => mkline (fst p) (snd p) (rd (c p)) (rd (s p)) (if date then [rt t] else [])) ps).
Proof.
  intros NE. unfold from_text.
  rewrite (mapM_map_ok _ _ (fun p => (fst p, snd p, render (dec_e 12 (c p)), render (dec_e 12 (s p)), if date then [render (dec_f 4 t)] else []))) by (intros p; apply scan_line_ok).
  cbn [bind]. rewrite (mapM_map_ok _ _ (fun p => mkline (fst p) (snd p) (rd (c p)) (rd (s p)) [])).
  2: { intros p. cbn [value_line]. rewrite !fortran_ok. reflexivity. }
  assert (AUX : (if date then match rev (map (fun p => (fst p, snd p, render (dec_e 12 (c p)), render (dec_e 12 (s p)), if date then [render (dec_f 4 t)] else [])) ps) with
      | [] => Err UnboundLocalError | (_, _, _, _, aux) :: _ => match aux with [] => Err IndexError | t :: _ => do t <- py_float t; Ok [t] end end else Ok []) = Ok (if date then [rt t] else [])).
  { destruct date; [|reflexivity]. rewrite <- map_rev. destruct (rev ps) as [|p q] eqn:E; [apply (f_equal (@rev _)) in E; rewrite rev_involutive in E; cbn in E; congruence|].
    cbn [map]. rewrite (proj1 C115_values) by apply valid_f. reflexivity. }
  rewrite AUX. cbn [bind]. rewrite map_map. reflexivity.
Qed.
Lemma text_ascii grace date h t : depth (clm h) = None -> time h = TScalar t -> mmax h <= lmax h ->
  exists file, to_text date h = Ok file /\ forall ls, to_ascii rd rt date h = Ok ls -> from_text grace date file = from_ascii grace date ls.
Proof.
  intros D T M. unfold to_text, to_ascii. rewrite D, T. pose proof (lm_loop_nonempty _ _ M) as NE.
  destruct date; eexists; (split; [reflexivity|]); intros ls E; injection E as <-;
    rewrite (from_lines grace _ (fun p => get (clm h) (fst p) (snd p) 0) (fun p => get (slm h) (fst p) (snd p) 0)) by exact NE; reflexivity.
Qed.

(** ** C115: a harmonics text file holds the field to a relative accuracy of half a unit in the twelfth decimal, and the time to 5e-5 years *)
Theorem C115_harmonics_file : forall grace date h t mo, wf h -> mmax h <= lmax h -> single h t mo ->
  (forall u, (Rabs (u - t) <= 1 / 20000)%R -> grace u = mo) ->
  exists file r, to_text date h = Ok file /\ from_text grace date file = Ok r /\
    lmax r = lmax h /\ mmax r = mmax h /\ wf r /\
    (date = true -> (exists u, time r = TScalar u /\ (Rabs (u - t) <= 1 / 20000)%R) /\ month r = month h) /\
    forall l m, l <= lmax h -> m <= mmax h ->
      (m <= l -> (Rabs (get (clm r) l m 0 - get (clm h) l m 0) <= Rabs (get (clm h) l m 0) / (2 * 10 ^ 12))%R /\
                 (Rabs (get (slm r) l m 0 - get (slm h) l m 0) <= Rabs (get (slm h) l m 0) / (2 * 10 ^ 12))%R) /\
      (l < m -> get (clm r) l m 0 = 0%R /\ get (slm r) l m 0 = 0%R).
Proof.
  intros grace date h t mo W M (D & T & MO) G.
  assert (C4 : (Rabs (rt t - t) <= 1 / 20000)%R) by (pose proof (close_f 4 t) as C; unfold rt; replace (1 / 20000)%R with (1 / (2 * 10 ^ 4))%R by (field; lra); exact C).
  assert (S : single h t (grace (rt t))) by (repeat split; [exact D|exact T|]; rewrite (G _ C4); exact MO).
  destruct (ascii_roundtrip rd rt grace date h t W M S) as (ls & r & E1 & E2 & R1 & R2 & R3 & R4 & R5 & R6).
  destruct (text_ascii grace date h t D T M) as (file & F1 & F2). exists file, r. split; [exact F1|]. split; [rewrite (F2 ls E1); exact E2|]. repeat (split; [assumption|]).
  split; [intros Q; destruct (R5 Q) as (A & B); split; [exists (rt t); split; assumption|exact B]|].
  intros l m Hl Hm. destruct (R6 l m Hl Hm) as (-> & ->). split; intros H.
  - destruct (Nat.leb_spec m l); [|lia]. split; apply close_e.
  - destruct (Nat.leb_spec m l); [lia|]. split; reflexivity.
Qed.
Print Assumptions C115_harmonics_file.

(** writing what was read reproduces the file character by character *)
Theorem C115_rewritten : forall grace date h t mo, wf h -> mmax h <= lmax h -> single h t mo -> (0 <= t)%R ->
  (forall u, (Rabs (u - t) <= 1 / 20000)%R -> grace u = mo) ->
  exists file r, to_text date h = Ok file /\ from_text grace date file = Ok r /\ to_text date r = Ok file.
Proof.
  intros grace date h t mo W M (D & T & MO) T0 G.
  assert (C4 : (Rabs (rt t - t) <= 1 / 20000)%R) by (pose proof (close_f 4 t) as C; unfold rt; replace (1 / 20000)%R with (1 / (2 * 10 ^ 4))%R by (field; lra); exact C).
  assert (S : single h t (grace (rt t))) by (repeat split; [exact D|exact T|]; rewrite (G _ C4); exact MO).
  destruct (ascii_roundtrip rd rt grace date h t W M S) as (ls & r & E1 & E2 & R1 & R2 & R3 & R4 & R5 & R6).
  destruct (text_ascii grace date h t D T M) as (file & F1 & F2). exists file, r. split; [exact F1|]. split; [rewrite (F2 ls E1); exact E2|].
  rewrite <- F1. unfold to_text. rewrite D, R3, T, R1, R2.
  assert (X : forall t1 t2, (date = true -> fmt_f 10 4 t1 = fmt_f 10 4 t2) -> map (fun p => text_line date (fst p) (snd p) (get (clm r) (fst p) (snd p) 0) (get (slm r) (fst p) (snd p) 0) t1) (lm_loop (lmax h) (mmax h)) =
     map (fun p => text_line date (fst p) (snd p) (get (clm h) (fst p) (snd p) 0) (get (slm h) (fst p) (snd p) 0) t2) (lm_loop (lmax h) (mmax h))).
  { intros t1 t2 HT. apply map_ext_in. intros [l m] I0. apply lm_loop_in in I0. cbn [fst snd]. destruct (R6 l m) as (-> & ->); [lia|lia|]. destruct (Nat.leb_spec m l); [|lia].
    unfold text_line. assert (Q : forall x, fmt_e 21 12 (rd x) = fmt_e 21 12 x) by (intros x; rewrite !fmt_e_eq; unfold rd; now rewrite again_e). rewrite !Q.
    destruct date; [|reflexivity]. now rewrite HT. }
  destruct date.
  - destruct (R5 eq_refl) as (-> & _). f_equal. apply X. intros _. rewrite !fmt_f_eq. unfold rt. now rewrite again_f.
  - f_equal. apply X. discriminate.
Qed.
Print Assumptions C115_rewritten.

(** ** a value that is not a number: the word nan is not found, and the numbers behind it move up one column *)
Definition nan_line (l m : nat) (s : R) (rest : text) : text :=
  fmt_d 5 l ++ blank :: fmt_d 5 m ++ blank :: pad 21 (chars "+nan") ++ blank :: fmt_e 21 12 s ++ rest.
Lemma find_one f g d s fuel : gap f g -> valid f d -> stops f s -> fuel > List.length (g ++ render d ++ s) ->
  exists fuel', fuel' > List.length s /\ findall_at fuel (number_pattern f) (g ++ render d ++ s) = render d :: findall_at fuel' (number_pattern f) s.
Proof.
  intros G V K F. destruct (findall_gap f (number_pattern f) (number_none f) g (render d ++ s) fuel G F) as (n & N & ->). destruct n as [|n]; [lia|].
  exists n. split; [rewrite app_length in N; pose proof (render_nonempty _ _ V); lia|]. cbn [findall_at]. now rewrite number_scan, (scan_render _ _ _ V K).
Qed.
Lemma nan_found l m s ds rest : laid true false ds rest -> findall (number_pattern true) (nan_line l m s rest) = render (dec_d l) :: render (dec_d m) :: render (dec_e 12 s) :: map render ds.
Proof.
  intros L. unfold nan_line, findall. rewrite !fmt_d_eq, !fmt_e_eq, <- !app_assoc. cbn [app].
  match goal with |- context [findall_at ?n _ _] => set (fuel := n) end.
  assert (ST : forall x, stops true (blank :: x)) by (intros x; repeat split).
  edestruct (find_one true _ (dec_d l) (blank :: blanks (5 - List.length (render (dec_d m))) ++ render (dec_d m) ++ blank :: pad 21 (chars "+nan") ++ blank :: blanks (21 - List.length (render (dec_e 12 s))) ++ render (dec_e 12 s) ++ rest) fuel (blanks_gap true (5 - List.length (render (dec_d l)))) (valid_d true l) (ST _)) as (n1 & N1 & ->); [unfold fuel; cbn [List.length]; lia|].
  f_equal. clearbody fuel.
  edestruct (find_one true _ (dec_d m) (blank :: pad 21 (chars "+nan") ++ blank :: blanks (21 - List.length (render (dec_e 12 s))) ++ render (dec_e 12 s) ++ rest) n1 (blank_gap true (5 - List.length (render (dec_d m)))) (valid_d true m) (ST _)) as (n2 & N2 & E2); [exact N1|].
  cbn [app] in E2. rewrite E2. f_equal. clear E2 N1.
  change (blank :: pad 21 (chars "+nan") ++ blank :: blanks (21 - List.length (render (dec_e 12 s))) ++ render (dec_e 12 s) ++ rest) with
    (blanks 18 ++ "+"%char :: (chars "nan" ++ blank :: blanks (21 - List.length (render (dec_e 12 s)))) ++ render (dec_e 12 s) ++ rest) in *.
  destruct (findall_gap true (number_pattern true) (number_none true) (blanks 18) _ n2 (blanks_gap true 18) N2) as (n3 & N3 & ->).
  destruct n3 as [|n3]; [cbn in N3; lia|]. cbn [findall_at].
  match goal with |- context [re_match (number_pattern true) (?c :: ?z)] => assert (RN : re_match (number_pattern true) (c :: z) = None) by (rewrite number_scan; reflexivity) end.
  rewrite RN. cbn [List.length] in N3.
  assert (GN : gap true (chars "nan" ++ blank :: blanks (21 - List.length (render (dec_e 12 s))))).
  { destruct (blank_gap true (21 - List.length (render (dec_e 12 s)))) as (A & _). split; [|exact (proj2 (gap_b_ok true (chars "nan") eq_refl))]. apply Forall_app. split; [exact (proj1 (gap_b_ok true (chars "nan") eq_refl))|exact A]. }
  destruct (find_one true _ (dec_e 12 s) rest n3 GN (valid_e true 12 s) (laid_stops _ _ _ L)) as (n4 & N4 & ->); [lia|]. f_equal. now apply (laid_found _ _ _ _ L).
Qed.
(** of a file with dates: the cosine read is the sine printed, the sine read is the time (no exception); without dates: ValueError *)
Theorem C115_nan_refuted : forall l m s t, (
  exists cs ss, scan_line (nan_line l m s (blank :: fmt_f 10 4 t)) = Ok (l, m, cs, ss, []) /\
    (exists x, fortran_float cs = Ok x /\ (Rabs (x - s) <= Rabs s / (2 * 10 ^ 12))%R) /\
    (exists y, fortran_float ss = Ok y /\ (Rabs (y - t) <= 1 / 20000)%R)) /\
  scan_line (nan_line l m s []) = Err ValueError.
Proof.
  intros l m s t. split.
  - assert (L : laid true false [dec_f 4 t] (blank :: fmt_f 10 4 t)).
    { rewrite fmt_f_eq, <- (app_nil_r (render (dec_f 4 t))), app_comm_cons. apply (laid_number true false (blank :: blanks _)); [apply blank_gap|apply valid_f|right; left; discriminate|apply laid_end, end_gap]. }
    exists (render (dec_e 12 s)), (render (dec_f 4 t)). unfold scan_line. rewrite (nan_found l m s _ _ L). cbn [map]. rewrite !as_index_ok. cbn [bind]. split; [reflexivity|]. split.
    + exists (rd s). split; [apply fortran_ok|apply close_e].
    + exists (rt t). split; [apply (proj1 (proj2 C115_values)), valid_f|]. unfold rt. replace (1 / 20000)%R with (1 / (2 * 10 ^ 4))%R by (field; lra). apply close_f.
  - unfold scan_line. rewrite (nan_found l m s [] []) by (apply laid_end, end_gap). reflexivity.
Qed.
Print Assumptions C115_nan_refuted.

(** an object that meets the hypotheses of the file theorems: degree and order 1, one month *)
Definition example_h : harm := mkharm 1 1 (mkarr 2 2 None (fun l m _ => (INR l - INR m / 3)%R)) (mkarr 2 2 None (fun l m _ => (- INR (l * m) / 7)%R)) (TScalar 2005.5%R) (TScalar 43%Z).
Example example_file : exists file r, to_text true example_h = Ok file /\ from_text (fun _ => 43%Z) true file = Ok r /\ to_text true r = Ok file.
Proof.
  apply (C115_rewritten (fun _ => 43%Z) true example_h 2005.5%R 43%Z); [repeat split|cbn; lia|repeat split|lra|reflexivity].
Qed.
(** a series of months and, with dates, an object without a single time cannot be written as text: the call raises a TypeError *)
Theorem C115_series_not_written : forall date h, (exists n, depth (clm h) = Some n) \/ (date = true /\ forall t, time h <> TScalar t) -> to_text date h = Err TypeError.
Proof.
  intros date h H. unfold to_text. destruct (depth (clm h)) as [n|] eqn:D; [reflexivity|]. destruct H as [(n & H)|(-> & H)]; [discriminate|]. destruct (time h) as [|t|ts]; [reflexivity|now destruct (H t)|reflexivity].
Qed.
Print Assumptions C115_series_not_written.
