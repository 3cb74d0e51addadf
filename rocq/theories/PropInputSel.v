(** C142: the auxiliary files that grace_input_months reads, the title and the attributes. *)
From Coq Require Import List Bool String.
From Verif Require Import Base InputSelModel.
Import ListNotations.
Close Scope Z_scope.
Open Scope string_scope.

(** Specification.  What can be replaced, the choice of the user, and what is offered. *)
Definition slot := (string * string * list string)%type.
Definition slots (a : sel) : list slot :=
  [("C20", slr_c20 a, ["CSR"; "GFZ"; "GSFC"]); ("21", slr_21 a, ["CSR"; "GFZ"; "GSFC"]); ("22", slr_22 a, ["CSR"; "GSFC"]);
   ("C30", slr_c30 a, ["CSR"; "GFZ"; "GSFC"; "LARES"]); ("C40", slr_c40 a, ["CSR"; "GSFC"; "LARES"]); ("C50", slr_c50 a, ["CSR"; "GSFC"; "LARES"]);
   ("DEG1", deg1 a, ["GFZ"; "SLR"; "SLF"; "Swenson"; "Tellus"; "UCI"])].
Definition offered (c : string) (o : list string) : bool := existsb (String.eqb c) o.
(** the replacements that are made: coefficient and center, in order *)
Definition made_of (l : list slot) : list (string * string) := flat_map (fun x => let '(n, c, o) := x in if offered c o then [(n, c)] else []) l.
Definition made (a : sel) : list (string * string) := made_of (slots a).
Definition joined (l : list string) : string := fold_right append "" l.
Definition suffix (x : string * string) : string := "_w" ++ snd x ++ "_" ++ fst x.
Definition geo (a : sel) (default : string) : path := match deg1_file a with APath q n => User q n | _ => InBase ["geocenter"] default end.
(** the file of every choice, and the reader it needs *)
Inductive Uses (a : sel) : string * string -> reader -> path -> Prop :=
| U20a : drel a = "RL04" -> Uses a ("C20", "CSR") RdC20 (InBase [] "TN-05_C20_SLR.txt")
| U20b : drel a = "RL05" -> Uses a ("C20", "CSR") RdC20 (InBase [] "TN-07_C20_SLR.txt")
| U20c : drel a = "RL06" -> Uses a ("C20", "CSR") RdC20 (InBase [] "C20_RL06.txt")
| U20d : Uses a ("C20", "GFZ") RdC20 (InBase [] ("GFZ_" ++ drel a ++ "_C20_SLR.dat"))
| U20e : Uses a ("C20", "GSFC") RdC20 (InBase [] "TN-14_C30_C20_GSFC_SLR.txt")
| U21a : Uses a ("21", "CSR") (RdCS2 None) (InBase [] ("C21_S21_" ++ drel a ++ ".txt"))
| U21b : Uses a ("21", "GFZ") (RdCS2 None) (InBase [] "GRAVIS-2B_GFZOP_GRACE+SLR_LOW_DEGREES_0003.dat")
| U21c : Uses a ("21", "GSFC") (RdCS2 (Some 1)) (InBase [] "gsfc_slr_5x5c61s61.txt")
| U22a : Uses a ("22", "CSR") (RdCS2 None) (InBase [] ("C22_S22_" ++ drel a ++ ".txt"))
| U22b : Uses a ("22", "GSFC") (RdCS2 (Some 2)) (InBase [] "gsfc_slr_5x5c61s61.txt")
| U30a : Uses a ("C30", "CSR") RdC30 (InBase [] "CSR_Monthly_5x5_Gravity_Harmonics.txt")
| U30b : Uses a ("C30", "LARES") RdC30 (InBase [] "C30_LARES_filtered.txt")
| U30c : Uses a ("C30", "GFZ") RdC30 (InBase [] "GRAVIS-2B_GFZOP_GRACE+SLR_LOW_DEGREES_0003.dat")
| U30d : Uses a ("C30", "GSFC") RdC30 (InBase [] "TN-14_C30_C20_GSFC_SLR.txt")
| U40a : Uses a ("C40", "CSR") (RdC40 false) (InBase [] "CSR_Monthly_5x5_Gravity_Harmonics.txt")
| U40b : Uses a ("C40", "LARES") (RdC40 false) (InBase [] "C40_LARES_filtered.txt")
| U40c : Uses a ("C40", "GSFC") (RdC40 true) (InBase [] "gsfc_slr_5x5c61s61.txt")
| U50a : Uses a ("C50", "CSR") (RdC50 false) (InBase [] "CSR_Monthly_5x5_Gravity_Harmonics.txt")
| U50b : Uses a ("C50", "LARES") (RdC50 false) (InBase [] "C50_LARES_filtered.txt")
| U50c : Uses a ("C50", "GSFC") (RdC50 true) (InBase [] "gsfc_slr_5x5c61s61.txt")
| UD1 : drel a = "RL04" \/ drel a = "RL05" -> Uses a ("DEG1", "Tellus") (RdTellus false) (geo a ("deg1_coef_" ++ drel a ++ ".txt"))
| UD2 : drel a <> "RL04" -> drel a <> "RL05" -> Uses a ("DEG1", "Tellus") (RdTellus true) (geo a ("TN-13_GEOC_" ++ proc a ++ "_" ++ drel a ++ ".txt"))
| UD3 : Uses a ("DEG1", "SLR") (RdSLR (drel a)) (InBase ["geocenter"] "gct2est.220_5s")
| UD4 : Uses a ("DEG1", "SLF") RdUCI (geo a (proc a ++ "_" ++ drel a ++ "_MPIOM_SLF_iter.txt"))
| UD5 : Uses a ("DEG1", "UCI") RdUCI (geo a (proc a ++ "_" ++ drel a ++ "_MPIOM_SLF_iter.txt"))
| UD6 : Uses a ("DEG1", "Swenson") RdSwenson (geo a ("gad_gsm." ++ drel a ++ ".txt"))
| UD7 : Uses a ("DEG1", "GFZ") RdGravis (geo a "GRAVIS-2B_GFZOP_GEOCENTER_0003.dat").
(** the name of the attribute of a replaced coefficient and what it says of the source *)
Definition key_of (n : string) : string := if n =? "DEG1" then "geocenter" else "SLR " ++ n.
Definition source_of (x : string * string) : string :=
  let '(n, c) := x in
  if c =? "Tellus" then "JPL Tellus" else if c =? "LARES" then "CSR LARES" else if (n =? "DEG1") && ((c =? "SLF") || (c =? "UCI")) then "UCI"
  else if (n =? "DEG1") && (c =? "SLR") then "CSR SLR" else if (c =? "GFZ") && negb (n =? "C20") then "GFZ GravIS" else c.
(** a text given for the geocenter file *)
Definition as_text (a : sel) : Prop := exists t, deg1_file a = AStr t /\ t <> "".
Definition known_release (d : string) : Prop := In d ["RL04"; "RL05"; "RL06"].

(** One step. *)
Definition flag_key (x : string * string) : string := if (fst x =? "C30") && (snd x =? "LARES") then "SLR_C30" else key_of (fst x).
Definition did (fails : reader -> path -> option exn) (a : sel) (n c : string) (o : list string) (s s' : state) : Prop :=
  (offered c o = true /\ exists r p, Uses a (n, c) r p /\ fails r p = None /\
     s' = mkstate (reads s ++ [(r, p)])%list (flags s ++ [suffix (n, c)])%list (attrs s ++ [(flag_key (n, c), (source_of (n, c), name_of p))])%list)
  \/ (offered c o = false /\ s' = s).
Definition stuck (fails : reader -> path -> option exn) (a : sel) (n c : string) (e : exn) : Prop :=
  (exists r p, Uses a (n, c) r p /\ fails r p = Some e) \/ (n = "C20" /\ c = "CSR" /\ ~ known_release (drel a) /\ e = UnboundLocalError) \/
  (n = "DEG1" /\ c <> "SLR" /\ as_text a /\ (e = AttributeError \/ exists r t, deg1_file a = AStr t /\ fails r (User "" t) = Some e)).
Definition sound (fails : reader -> path -> option exn) (a : sel) (x : slot) (f : state -> res state) : Prop :=
  let '(n, c, o) := x in forall s, match f s with Ok s' => did fails a n c o s s' | Err e => offered c o = true /\ stuck fails a n c e end.

Ltac eqs := repeat match goal with
  | H : String.eqb _ _ = true |- _ => apply String.eqb_eq in H
  | H : String.eqb _ _ = false |- _ => apply String.eqb_neq in H end.
Ltac one r p :=
  lazymatch goal with fl : reader -> path -> option exn |- _ =>
  destruct (fl r p) as [e|] eqn:F;
  [ split; [reflexivity | left; exists r, p; split; [constructor; auto | exact F]]
  | left; split; [reflexivity | exists r, p; split; [constructor; auto | split; [exact F | reflexivity]]] ] end.
Lemma sound_c20 : forall fails a, sound fails a ("C20", slr_c20 a, ["CSR"; "GFZ"; "GSFC"]) (sel_c20 fails a).
Proof.
  intros fails a s. unfold sel_c20, is, base, branch.
  destruct (String.eqb (slr_c20 a) "CSR") eqn:E1.
  { apply String.eqb_eq in E1. rewrite E1.
    destruct (String.eqb (drel a) "RL04") eqn:R1; [apply String.eqb_eq in R1; cbn [bind]; one RdC20 (InBase [] "TN-05_C20_SLR.txt")|].
    destruct (String.eqb (drel a) "RL05") eqn:R2; [apply String.eqb_eq in R2; cbn [bind]; one RdC20 (InBase [] "TN-07_C20_SLR.txt")|].
    destruct (String.eqb (drel a) "RL06") eqn:R3; [apply String.eqb_eq in R3; cbn [bind]; one RdC20 (InBase [] "C20_RL06.txt")|].
    cbn [bind]. eqs. split; [reflexivity|]. right; left. do 2 (split; [reflexivity|]). split; [|reflexivity].
    intros [K|[K|[K|[]]]]; congruence. }
  destruct (String.eqb (slr_c20 a) "GFZ") eqn:E2; [apply String.eqb_eq in E2; rewrite E2; one RdC20 (InBase [] ("GFZ_" ++ drel a ++ "_C20_SLR.dat"))|].
  destruct (String.eqb (slr_c20 a) "GSFC") eqn:E3; [apply String.eqb_eq in E3; rewrite E3; one RdC20 (InBase [] "TN-14_C30_C20_GSFC_SLR.txt")|].
  right. split; [unfold offered; simpl; rewrite E1, E2, E3; reflexivity | reflexivity].
Qed.
Ltac choose3 c x r p := destruct (String.eqb c x) eqn:?E; [match goal with H : String.eqb c x = true |- _ => apply String.eqb_eq in H; rewrite H end; one r p|].
Ltac none := right; split; [unfold offered; simpl; repeat match goal with H : String.eqb _ _ = false |- _ => rewrite H; clear H end; reflexivity | reflexivity].
Lemma sound_21 : forall fails a, sound fails a ("21", slr_21 a, ["CSR"; "GFZ"; "GSFC"]) (sel_21 fails a).
Proof.
  intros fails a s. unfold sel_21, is, base, branch.
  choose3 (slr_21 a) "CSR" (RdCS2 None) (InBase [] ("C21_S21_" ++ drel a ++ ".txt")).
  choose3 (slr_21 a) "GFZ" (RdCS2 None) (InBase [] "GRAVIS-2B_GFZOP_GRACE+SLR_LOW_DEGREES_0003.dat").
  choose3 (slr_21 a) "GSFC" (RdCS2 (Some 1)) (InBase [] "gsfc_slr_5x5c61s61.txt"). none.
Qed.
Lemma sound_22 : forall fails a, sound fails a ("22", slr_22 a, ["CSR"; "GSFC"]) (sel_22 fails a).
Proof.
  intros fails a s. unfold sel_22, is, base, branch.
  choose3 (slr_22 a) "CSR" (RdCS2 None) (InBase [] ("C22_S22_" ++ drel a ++ ".txt")).
  choose3 (slr_22 a) "GSFC" (RdCS2 (Some 2)) (InBase [] "gsfc_slr_5x5c61s61.txt"). none.
Qed.
Lemma sound_c30 : forall fails a, sound fails a ("C30", slr_c30 a, ["CSR"; "GFZ"; "GSFC"; "LARES"]) (sel_c30 fails a).
Proof.
  intros fails a s. unfold sel_c30, is, base, branch.
  choose3 (slr_c30 a) "CSR" RdC30 (InBase [] "CSR_Monthly_5x5_Gravity_Harmonics.txt").
  choose3 (slr_c30 a) "LARES" RdC30 (InBase [] "C30_LARES_filtered.txt").
  choose3 (slr_c30 a) "GFZ" RdC30 (InBase [] "GRAVIS-2B_GFZOP_GRACE+SLR_LOW_DEGREES_0003.dat").
  choose3 (slr_c30 a) "GSFC" RdC30 (InBase [] "TN-14_C30_C20_GSFC_SLR.txt"). none.
Qed.
Lemma sound_c40 : forall fails a, sound fails a ("C40", slr_c40 a, ["CSR"; "GSFC"; "LARES"]) (sel_c40 fails a).
Proof.
  intros fails a s. unfold sel_c40, is, base, branch.
  choose3 (slr_c40 a) "CSR" (RdC40 false) (InBase [] "CSR_Monthly_5x5_Gravity_Harmonics.txt").
  choose3 (slr_c40 a) "LARES" (RdC40 false) (InBase [] "C40_LARES_filtered.txt").
  choose3 (slr_c40 a) "GSFC" (RdC40 true) (InBase [] "gsfc_slr_5x5c61s61.txt"). none.
Qed.
Lemma sound_c50 : forall fails a, sound fails a ("C50", slr_c50 a, ["CSR"; "GSFC"; "LARES"]) (sel_c50 fails a).
Proof.
  intros fails a s. unfold sel_c50, is, base, branch.
  choose3 (slr_c50 a) "CSR" (RdC50 false) (InBase [] "CSR_Monthly_5x5_Gravity_Harmonics.txt").
  choose3 (slr_c50 a) "LARES" (RdC50 false) (InBase [] "C50_LARES_filtered.txt").
  choose3 (slr_c50 a) "GSFC" (RdC50 true) (InBase [] "gsfc_slr_5x5c61s61.txt"). none.
Qed.
Lemma geo_sound : forall fails a c o r default, offered c o = true -> c <> "SLR" -> Uses a ("DEG1", c) r (geo a default) ->
  forall s, match geocenter_branch fails r (deg1_file a) default (suffix ("DEG1", c)) (source_of ("DEG1", c)) s with
            | Ok s' => did fails a "DEG1" c o s s' | Err e => offered c o = true /\ stuck fails a "DEG1" c e end.
Proof.
  intros fails a c o r default Ho Hc HU s. unfold geocenter_branch, branch.
  assert (G : forall p, Uses a ("DEG1", c) r p -> match (match fails r p with Some e => Err e | None => Ok (mkstate (reads s ++ [(r, p)])%list (flags s ++ [suffix ("DEG1", c)])%list (attrs s ++ [("geocenter", (source_of ("DEG1", c), name_of p))])%list) end) with
            | Ok s' => did fails a "DEG1" c o s s' | Err e => offered c o = true /\ stuck fails a "DEG1" c e end).
  { intros p HP. destruct (fails r p) eqn:F.
    - split; [exact Ho|]. left. eauto.
    - left. split; [exact Ho|]. exists r, p. auto. }
  unfold geo in HU. destruct (deg1_file a) as [|q n|t] eqn:D.
  - exact (G _ HU).
  - exact (G _ HU).
  - destruct t as [|ch t]; [exact (G _ HU)|].
    destruct (fails r (User "" (String ch t))) eqn:F.
    + split; [exact Ho|]. right; right. do 2 (split; [auto|]). split; [exists (String ch t); split; [exact D|discriminate]|]. right. exists r, (String ch t). auto.
    + split; [exact Ho|]. right; right. do 2 (split; [auto|]). split; [exists (String ch t); split; [exact D|discriminate]|]. left. reflexivity.
Qed.
Lemma sound_deg1 : forall fails a, sound fails a ("DEG1", deg1 a, ["GFZ"; "SLR"; "SLF"; "Swenson"; "Tellus"; "UCI"]) (sel_deg1 fails a).
Proof.
  intros fails a s. unfold sel_deg1, is.
  destruct (String.eqb (deg1 a) "Tellus") eqn:E1.
  { apply String.eqb_eq in E1. rewrite E1.
    destruct (String.eqb (drel a) "RL04" || String.eqb (drel a) "RL05")%bool eqn:R.
    - apply (geo_sound fails a "Tellus"); [reflexivity|discriminate|]. constructor. apply orb_true_iff in R. destruct R as [R|R]; apply String.eqb_eq in R; auto.
    - apply (geo_sound fails a "Tellus"); [reflexivity|discriminate|]. apply orb_false_iff in R. destruct R as [R1 R2]. eqs. constructor; auto. }
  destruct (String.eqb (deg1 a) "SLR") eqn:E2.
  { apply String.eqb_eq in E2. rewrite E2. unfold branch. one (RdSLR (drel a)) (InBase ["geocenter"] "gct2est.220_5s"). }
  destruct (String.eqb (deg1 a) "SLF") eqn:E3.
  { apply String.eqb_eq in E3. rewrite E3. cbn [orb]. apply (geo_sound fails a "SLF"); [reflexivity|discriminate|constructor]. }
  destruct (String.eqb (deg1 a) "UCI") eqn:E4.
  { apply String.eqb_eq in E4. rewrite E4. cbn [orb]. apply (geo_sound fails a "UCI"); [reflexivity|discriminate|constructor]. }
  cbn [orb].
  destruct (String.eqb (deg1 a) "Swenson") eqn:E5.
  { apply String.eqb_eq in E5. rewrite E5. apply (geo_sound fails a "Swenson"); [reflexivity|discriminate|constructor]. }
  destruct (String.eqb (deg1 a) "GFZ") eqn:E6.
  { apply String.eqb_eq in E6. rewrite E6. apply (geo_sound fails a "GFZ"); [reflexivity|discriminate|constructor]. }
  none.
Qed.

(** All steps. *)
Fixpoint run (l : list (slot * (state -> res state))) (s : state) : res state := match l with [] => Ok s | (_, f) :: r => do s' <- f s; run r s' end.
Definition steps (fails : reader -> path -> option exn) (a : sel) : list (slot * (state -> res state)) :=
  combine (slots a) [sel_c20 fails a; sel_21 fails a; sel_22 fails a; sel_c30 fails a; sel_c40 fails a; sel_c50 fails a; sel_deg1 fails a].
Lemma selection_run : forall fails a, selection fails a = (do s <- run (steps fails a) (mkstate [] [] []); Ok (sel_flags a s)).
Proof.
  intros. unfold selection, steps, slots. cbn [combine run].
  repeat match goal with |- bind ?x _ = bind (bind ?x _) _ => destruct x; cbn [bind]; [|reflexivity] end. reflexivity.
Qed.
Lemma steps_sound : forall fails a, Forall (fun xf => sound fails a (fst xf) (snd xf)) (steps fails a).
Proof.
  intros. unfold steps, slots. cbn [combine].
  repeat (apply Forall_cons; [cbn [fst snd]; first [apply sound_c20 | apply sound_21 | apply sound_22 | apply sound_c30 | apply sound_c40 | apply sound_c50 | apply sound_deg1]|]). constructor.
Qed.
Definition attribute (x : string * string) (rp : reader * path) : string * (string * string) := (flag_key x, (source_of x, name_of (snd rp))).
Lemma run_ok : forall fails a l s s', Forall (fun xf => sound fails a (fst xf) (snd xf)) l -> run l s = Ok s' ->
  exists rs, reads s' = (reads s ++ rs)%list /\ Forall2 (fun x rp => Uses a x (fst rp) (snd rp) /\ fails (fst rp) (snd rp) = None) (made_of (map fst l)) rs /\
    flags s' = (flags s ++ map suffix (made_of (map fst l)))%list /\ attrs s' = (attrs s ++ map (fun y => attribute (fst y) (snd y)) (combine (made_of (map fst l)) rs))%list.
Proof.
  intros fails a l. induction l as [|[[[n c] o] f] l IH]; intros s s' H E; cbn [run] in E.
  - injection E as <-. exists []. cbn. rewrite !app_nil_r. auto.
  - inversion H as [|? ? Hf Hl]; subst. cbn [fst snd] in Hf. specialize (Hf s). destruct (f s) as [s1|e] eqn:Fs; [|discriminate]. cbn [bind] in E.
    destruct (IH s1 s' Hl E) as (rs & R1 & R2 & R3 & R4).
    destruct Hf as [(Ho & r & p & HU & HF & ->)|(Ho & ->)].
    + exists ((r, p) :: rs). cbn [map fst]. unfold made_of. cbn [flat_map]. rewrite Ho. cbn [app]. fold (made_of (map fst l)).
      split; [rewrite R1; cbn; rewrite <- app_assoc; reflexivity|]. split; [constructor; [auto|exact R2]|].
      split; [rewrite R3; cbn; rewrite <- app_assoc; reflexivity|]. rewrite R4. cbn. rewrite <- app_assoc. reflexivity.
    + exists rs. cbn [map fst]. unfold made_of. cbn [flat_map]. rewrite Ho. cbn [app]. fold (made_of (map fst l)). auto.
Qed.
Lemma run_err : forall fails a l s e, Forall (fun xf => sound fails a (fst xf) (snd xf)) l -> run l s = Err e ->
  exists n c, In (n, c) (made_of (map fst l)) /\ stuck fails a n c e.
Proof.
  intros fails a l. induction l as [|[[[n c] o] f] l IH]; intros s e H E; cbn [run] in E; [discriminate|].
  inversion H as [|? ? Hf Hl]; subst. cbn [fst snd] in Hf. specialize (Hf s). cbn [map fst]. unfold made_of. cbn [flat_map]. fold (made_of (map fst l)).
  destruct (f s) as [s1|e1] eqn:Fs; cbn [bind] in E.
  - destruct (IH s1 e Hl E) as (n' & c' & I & K). exists n', c'. split; [apply in_or_app; auto|exact K].
  - injection E as <-. destruct Hf as [Ho K]. exists n, c. rewrite Ho. split; [left; reflexivity|exact K].
Qed.
Lemma steps_slots : forall fails a, map fst (steps fails a) = slots a.
Proof. reflexivity. Qed.
Lemma sel_ok : forall fails a s, selection fails a = Ok s -> exists s1, run (steps fails a) (mkstate [] [] []) = Ok s1 /\ s = sel_flags a s1.
Proof. intros fails a s H. rewrite selection_run in H. destruct (run _ _) as [s1|]; [|discriminate]. injection H as <-. eauto. Qed.
Definition tags (a : sel) : list string := ((if atm a then ["_wATM"] else []) ++ (if pole a then ["_wPT"] else []))%list.
Lemma flags_tags : forall a s, flags (sel_flags a s) = (flags s ++ tags a)%list.
Proof. intros a s. unfold sel_flags, tags. destruct (atm a), (pole a); cbn; rewrite ?app_nil_r, <- ?app_assoc; reflexivity. Qed.
Lemma reads_tags : forall a s, reads (sel_flags a s) = reads s.
Proof. intros a s. unfold sel_flags. destruct (atm a), (pole a); reflexivity. Qed.
Lemma sel_flags_made : forall fails a s, selection fails a = Ok s -> flags s = (map suffix (made a) ++ tags a)%list.
Proof.
  intros fails a s H. destruct (sel_ok _ _ _ H) as (s1 & R & ->). destruct (run_ok _ _ _ _ _ (steps_sound fails a) R) as (rs & _ & _ & F & _).
  rewrite steps_slots in F. rewrite flags_tags, F. reflexivity.
Qed.
Lemma append_nil_r : forall x, x ++ "" = x.
Proof. induction x; cbn; congruence. Qed.
Lemma append_assoc : forall x y z, (x ++ y) ++ z = x ++ (y ++ z).
Proof. induction x; intros; cbn; congruence. Qed.
Lemma joined_app : forall l m, joined (l ++ m) = joined l ++ joined m.
Proof. induction l; intros; cbn; [reflexivity|]. rewrite IHl, append_assoc. reflexivity. Qed.

(** The title names the replacements that were made, with their centers, and the two corrections: nothing else. *)
Theorem C142_title : forall fails a s, selection fails a = Ok s ->
  title s = joined (map suffix (made a)) ++ (if atm a then "_wATM" else "") ++ (if pole a then "_wPT" else "").
Proof.
  intros fails a s H. unfold title. rewrite (sel_flags_made _ _ _ H). change (fold_right append "") with joined. rewrite joined_app. f_equal.
  unfold tags. destruct (atm a), (pole a); reflexivity.
Qed.
(** The files read are those of the choices, in order, and every one was read without an error. *)
Theorem C142_files : forall fails a s, selection fails a = Ok s ->
  Forall2 (fun x rp => Uses a x (fst rp) (snd rp) /\ fails (fst rp) (snd rp) = None) (made a) (reads s).
Proof.
  intros fails a s H. destruct (sel_ok _ _ _ H) as (s1 & R & ->). destruct (run_ok _ _ _ _ _ (steps_sound fails a) R) as (rs & R1 & R2 & _).
  rewrite steps_slots in R2. rewrite reads_tags, R1. exact R2.
Qed.
Lemma uses_unique : forall a x r p r' p', Uses a x r p -> Uses a x r' p' -> r = r' /\ p = p'.
Proof.
  intros a x r p r' p' H H'. inversion H; subst; inversion H'; subst; split; try reflexivity; try congruence;
  repeat match goal with K : _ \/ _ |- _ => destruct K end; congruence.
Qed.
(** so the files are determined by the choices *)
Theorem C142_files_unique : forall fails gails a s t, selection fails a = Ok s -> selection gails a = Ok t -> reads s = reads t.
Proof.
  intros fails gails a s t H K. apply C142_files in H. apply C142_files in K. revert K. generalize (reads t). induction H as [|x [r p] l rs [HU _] _ IH]; intros ts K.
  - inversion K. reflexivity.
  - inversion K as [|? [r' p'] ? ts' [KU _] KT]; subst. cbn [fst snd] in *. destruct (uses_unique _ _ _ _ _ _ HU KU) as [-> ->]. f_equal. apply IH. exact KT.
Qed.

(** Two runs with the same title made the same replacements with the same centers and the same corrections. *)
Definition every : list (string * string) :=
  flat_map (fun x => map (fun c => (fst x, c)) (snd x))
    [("C20", ["CSR"; "GFZ"; "GSFC"]); ("21", ["CSR"; "GFZ"; "GSFC"]); ("22", ["CSR"; "GSFC"]); ("C30", ["CSR"; "GFZ"; "GSFC"; "LARES"]);
     ("C40", ["CSR"; "GSFC"; "LARES"]); ("C50", ["CSR"; "GSFC"; "LARES"]); ("DEG1", ["GFZ"; "SLR"; "SLF"; "Swenson"; "Tellus"; "UCI"])].
Definition code : list string := (map suffix every ++ ["_wATM"; "_wPT"])%list.
Lemma offered_in : forall c o, offered c o = true -> In c o.
Proof. intros c o H. unfold offered in H. apply existsb_exists in H. destruct H as (x & I & E). apply String.eqb_eq in E. subst. exact I. Qed.
Lemma made_every : forall a x, In x (made a) -> In x every.
Proof.
  intros a x H. unfold made, made_of, slots in H. cbn [flat_map] in H.
  repeat (apply in_app_or in H; destruct H as [H|H]);
  try (match type of H with In _ (if offered ?c ?o then _ else _) => destruct (offered c o) eqn:O; [|destruct H] end;
       destruct H as [<-|[]]; apply offered_in in O; repeat (destruct O as [<-|O]; [cbn; tauto|]); destruct O).
  destruct H.
Qed.
Lemma prefix_either : forall x y r t, x ++ r = y ++ t -> prefix x y = true \/ prefix y x = true.
Proof.
  induction x as [|c x IH]; intros y r t H; [left; destruct y; reflexivity|]. destruct y as [|d y]; [right; reflexivity|].
  cbn in H. injection H as -> H. destruct (IH _ _ _ H) as [K|K]; [left|right]; cbn; destruct (Ascii.ascii_dec d d); congruence.
Qed.
Lemma prefix_free : forall x y, In x code -> In y code -> prefix x y = true -> x = y.
Proof.
  assert (G : forallb (fun x => forallb (fun y => implb (prefix x y) (x =? y)) code) code = true) by (vm_compute; reflexivity).
  intros x y Hx Hy P. rewrite forallb_forall in G. specialize (G x Hx). cbv beta in G. rewrite forallb_forall in G. specialize (G y Hy). cbv beta in G.
  rewrite P in G. apply String.eqb_eq. exact G.
Qed.
Lemma not_empty : forall x, In x code -> x <> "".
Proof.
  assert (G : forallb (fun x => negb (x =? "")) code = true) by (vm_compute; reflexivity).
  intros x H E. subst. rewrite forallb_forall in G. specialize (G "" H). discriminate.
Qed.
Lemma append_cancel : forall x r t, x ++ r = x ++ t -> r = t.
Proof. induction x; intros r t H; [exact H|]. cbn in H. injection H as H. auto. Qed.
Lemma joined_inj : forall l m, (forall x, In x l -> In x code) -> (forall x, In x m -> In x code) -> joined l = joined m -> l = m.
Proof.
  induction l as [|x l IH]; intros [|y m] Hl Hm E; cbn in E.
  - reflexivity.
  - exfalso. apply (not_empty y); [apply Hm; left; reflexivity|]. destruct y; [reflexivity|discriminate].
  - exfalso. apply (not_empty x); [apply Hl; left; reflexivity|]. destruct x; [reflexivity|discriminate].
  - assert (X : x = y).
    { assert (Ix : In x code) by (apply Hl; left; reflexivity). assert (Iy : In y code) by (apply Hm; left; reflexivity).
      destruct (prefix_either _ _ _ _ E) as [P|P]; [|symmetry]; apply prefix_free; assumption. }
    subst y. f_equal. apply IH; [intros; apply Hl; right; assumption|intros; apply Hm; right; assumption|]. exact (append_cancel _ _ _ E).
Qed.
Lemma suffix_inj : forall x y, In x every -> In y every -> suffix x = suffix y -> x = y.
Proof.
  assert (G : forallb (fun x => forallb (fun y => implb (suffix x =? suffix y) ((fst x =? fst y) && (snd x =? snd y))) every) every = true) by (vm_compute; reflexivity).
  intros x y Hx Hy P. rewrite forallb_forall in G. specialize (G x Hx). cbv beta in G. rewrite forallb_forall in G. specialize (G y Hy). cbv beta in G.
  rewrite P, String.eqb_refl in G. cbn [implb] in G. apply andb_true_iff in G. destruct G as [G1 G2]. apply String.eqb_eq in G1, G2. destruct x, y; cbn in *; congruence.
Qed.
Lemma suffix_tag : forall x, In x every -> suffix x <> "_wATM" /\ suffix x <> "_wPT".
Proof.
  assert (G : forallb (fun x => negb (suffix x =? "_wATM") && negb (suffix x =? "_wPT")) every = true) by (vm_compute; reflexivity).
  intros x H. rewrite forallb_forall in G. specialize (G x H). cbv beta in G. apply andb_true_iff in G. destruct G as [G1 G2].
  apply negb_true_iff in G1, G2. apply String.eqb_neq in G1, G2. auto.
Qed.
Lemma split_tags : forall l m a b, (forall x, In x l -> In x every) -> (forall x, In x m -> In x every) ->
  (map suffix l ++ tags a = map suffix m ++ tags b)%list -> l = m /\ tags a = tags b.
Proof.
  assert (T : forall a x r, tags a = x :: r -> x = "_wATM" \/ x = "_wPT") by (intros a x r H; unfold tags in H; destruct (atm a), (pole a); cbn in H; inversion H; auto).
  induction l as [|x l IH]; intros [|y m] a b Hl Hm E; cbn in E.
  - auto.
  - exfalso. destruct (suffix_tag y (Hm y (or_introl eq_refl))). destruct (T _ _ _ E); contradiction.
  - exfalso. destruct (suffix_tag x (Hl x (or_introl eq_refl))). destruct (T _ _ _ (eq_sym E)); contradiction.
  - assert (E1 : suffix x = suffix y) by exact (f_equal (hd "") E). assert (E2 := f_equal (@tl string) E). cbn [tl] in E2. destruct (IH m a b) as [-> ->]; [intros; apply Hl; right; assumption|intros; apply Hm; right; assumption|exact E2|].
    rewrite (suffix_inj x y); [auto|apply Hl; left; reflexivity|apply Hm; left; reflexivity|exact E1].
Qed.
Theorem C142_title_tells : forall fails gails a b s t, selection fails a = Ok s -> selection gails b = Ok t -> title s = title t ->
  made a = made b /\ atm a = atm b /\ pole a = pole b.
Proof.
  intros fails gails a b s t H K E. unfold title in E. change (fold_right append "") with joined in E.
  rewrite (sel_flags_made _ _ _ H), (sel_flags_made _ _ _ K) in E.
  assert (G : forall a x, In x (map suffix (made a) ++ tags a)%list -> In x code).
  { intros a0 x I. unfold code. apply in_app_or in I. apply in_or_app. destruct I as [I|I].
    - left. apply in_map_iff in I. destruct I as (y & <- & I). apply in_map. exact (made_every _ _ I).
    - right. unfold tags in I. destruct (atm a0), (pole a0); cbn in *; tauto. }
  apply joined_inj in E; [|apply G|apply G]. apply split_tags in E; [|apply made_every|apply made_every]. destruct E as [E1 E2]. split; [exact E1|].
  unfold tags in E2. destruct (atm a), (pole a), (atm b), (pole b); cbn in E2; try discriminate; auto.
Qed.

(** Every replacement has its attribute, with the source and the name of the file, in order; LARES for C30 is the exception. *)
Definition corrections (a : sel) : list (string * (string * string)) :=
  ((if atm a then [("atmospheric_correction", ("Fagiolini et al. (2015)", ""))] else []) ++ (if pole a then [("pole_tide_correction", ("Wahr et al. (2015)", ""))] else []))%list.
Lemma attrs_tags : forall a s, attrs (sel_flags a s) = (attrs s ++ corrections a)%list.
Proof. intros a s. unfold sel_flags, corrections. destruct (atm a), (pole a); cbn; rewrite ?app_nil_r, <- ?app_assoc; reflexivity. Qed.
Lemma sel_attrs : forall fails a s, selection fails a = Ok s ->
  attrs s = (map (fun y => attribute (fst y) (snd y)) (combine (made a) (reads s)) ++ corrections a)%list.
Proof.
  intros fails a s H. destruct (sel_ok _ _ _ H) as (s1 & R & ->). destruct (run_ok _ _ _ _ _ (steps_sound fails a) R) as (rs & R1 & _ & _ & R4).
  rewrite steps_slots in R4. rewrite attrs_tags, reads_tags, R1. cbn [app reads]. rewrite R4. reflexivity.
Qed.
Theorem C142_attributes : forall fails a s, selection fails a = Ok s -> slr_c30 a <> "LARES" ->
  attrs s = (map (fun y => (key_of (fst (fst y)), (source_of (fst y), name_of (snd (snd y))))) (combine (made a) (reads s)) ++ corrections a)%list.
Proof.
  intros fails a s H L. rewrite (sel_attrs _ _ _ H). f_equal. apply map_ext_in. intros [[n c] rp] I. apply in_combine_l in I.
  unfold attribute, flag_key. cbn [fst snd].
  destruct ((n =? "C30") && (c =? "LARES")) eqn:E; [|reflexivity]. exfalso. apply andb_true_iff in E. destruct E as [E1 E2]. apply String.eqb_eq in E1, E2. subst.
  unfold made, made_of, slots in I. cbn [flat_map] in I.
  repeat (apply in_app_or in I; destruct I as [I|I]);
  try (match type of I with In _ (if ?b then _ else _) => destruct b end; [destruct I as [I|[]]; injection I; intros; congruence | destruct I]).
  destruct I.
Qed.
Theorem C142_lares_refuted : forall fails a s, selection fails a = Ok s -> slr_c30 a = "LARES" -> ~ In "SLR C30" (map fst (attrs s)) /\ In "SLR_C30" (map fst (attrs s)).
Proof.
  intros fails a s H L. pose proof (C142_files _ _ _ H) as F. rewrite (sel_attrs _ _ _ H), map_app, map_map.
  assert (G : forall x, In x (made a) -> fst x = "C30" -> snd x = "LARES").
  { intros [n c] I E. cbn in E. subst n. unfold made, made_of, slots in I. cbn [flat_map] in I.
    repeat (apply in_app_or in I; destruct I as [I|I]);
    try (match type of I with In _ (if ?b then _ else _) => destruct b end; [destruct I as [I|[]]; injection I; intros; cbn; congruence | destruct I]). destruct I. }
  split.
  - intros I. apply in_app_or in I. destruct I as [I|I].
    + apply in_map_iff in I. destruct I as ([x rp] & E & I). apply in_combine_l in I. cbn [fst snd attribute] in E. pose proof (made_every _ _ I) as J.
      unfold flag_key in E. destruct ((fst x =? "C30") && (snd x =? "LARES")) eqn:B; [discriminate|].
      repeat (destruct J as [<-|J]; [first [discriminate E | specialize (G _ I eq_refl); discriminate G | discriminate B]|]). destruct J.
    + unfold corrections in I. destruct (atm a), (pole a); cbn in I; intuition discriminate.
  - apply in_or_app. left.
    assert (M : In ("C30", "LARES") (made a)).
    { unfold made, made_of, slots. cbn [flat_map]. rewrite L. do 3 (apply in_or_app; right). apply in_or_app; left. left. reflexivity. }
    clear G. revert M F. generalize (made a), (reads s). intros l rs M F. induction F as [|x rp l rs _ F IH]; [destruct M|].
    cbn [combine map]. destruct M as [->|M]; [left; reflexivity|right; auto].
Qed.

(** When the choice of files ends with an exception, a file of a choice could not be read, or the release has no C20 file of CSR, or the geocenter file was given as a text. *)
Theorem C142_failure : forall fails a e, selection fails a = Err e ->
  (exists x r p, In x (made a) /\ Uses a x r p /\ fails r p = Some e) \/
  (slr_c20 a = "CSR" /\ ~ known_release (drel a) /\ e = UnboundLocalError) \/
  (exists c, In ("DEG1", c) (made a) /\ c <> "SLR" /\ as_text a /\ (e = AttributeError \/ exists r t, deg1_file a = AStr t /\ fails r (User "" t) = Some e)).
Proof.
  intros fails a e H. rewrite selection_run in H. destruct (run _ _) as [s1|e1] eqn:R; [discriminate|]. injection H as <-.
  destruct (run_err _ _ _ _ _ (steps_sound fails a) R) as (n & c & I & K). rewrite steps_slots in I. fold (made a) in I.
  destruct K as [(r & p & HU & HF)|[(-> & -> & HR & ->)|(-> & Hc & HT & HE)]].
  - left. exists (n, c), r, p. auto.
  - right; left. split; [|auto]. unfold made, made_of, slots in I. cbn [flat_map] in I.
    repeat (apply in_app_or in I; destruct I as [I|I]);
    try (match type of I with In _ (if ?b then _ else _) => destruct b end; [destruct I as [I|[]]; injection I; intros; congruence | destruct I]). destruct I.
  - right; right. exists c. auto.
Qed.
(** Otherwise it succeeds. *)
Theorem C142_success : forall fails a, (forall x r p, In x (made a) -> Uses a x r p -> fails r p = None) -> (slr_c20 a = "CSR" -> known_release (drel a)) ->
  (~ as_text a \/ deg1 a = "SLR" \/ offered (deg1 a) ["GFZ"; "SLR"; "SLF"; "Swenson"; "Tellus"; "UCI"] = false) -> exists s, selection fails a = Ok s.
Proof.
  intros fails a HF HR HT. destruct (selection fails a) as [s|e] eqn:E; [eauto|]. exfalso.
  destruct (C142_failure _ _ _ E) as [(x & r & p & I & HU & K)|[(K1 & K2 & _)|(c & I & Hc & HA & _)]].
  - rewrite (HF _ _ _ I HU) in K. discriminate.
  - auto.
  - assert (D : c = deg1 a /\ offered (deg1 a) ["GFZ"; "SLR"; "SLF"; "Swenson"; "Tellus"; "UCI"] = true).
    { unfold made, made_of, slots in I. cbn [flat_map] in I. repeat (apply in_app_or in I; destruct I as [I|I]);
      try (match type of I with In _ (if ?b then _ else _) => destruct b eqn:O end; [destruct I as [I|[]]; injection I; intros; subst; first [discriminate | auto] | destruct I]). destruct I. }
    destruct D as [-> D]. destruct HT as [HT|[HT|HT]]; [auto|contradiction|congruence].
Qed.
(** A release other than RL04, RL05 and RL06 cannot be used with the C20 of CSR: not an error about the release but UnboundLocalError. *)
Theorem C142_release_refuted : forall fails a, slr_c20 a = "CSR" -> ~ known_release (drel a) -> selection fails a = Err UnboundLocalError.
Proof.
  intros fails a H K. unfold selection, sel_c20, is. rewrite H, String.eqb_refl.
  repeat match goal with |- context [String.eqb (drel a) ?x] => let E := fresh in destruct (String.eqb (drel a) x) eqn:E; [apply String.eqb_eq in E; exfalso; apply K; rewrite E; unfold known_release; cbn; tauto|] end.
  reflexivity.
Qed.
(** The file of the geocenter given as a text, as documented: never a result; if every file can be read, AttributeError. *)
Theorem C142_text_refuted : forall fails a, as_text a -> deg1 a <> "SLR" -> offered (deg1 a) ["GFZ"; "SLR"; "SLF"; "Swenson"; "Tellus"; "UCI"] = true ->
  (forall s, selection fails a <> Ok s) /\ ((forall r p, fails r p = None) -> (slr_c20 a = "CSR" -> known_release (drel a)) -> selection fails a = Err AttributeError).
Proof.
  intros fails a (t & Ht & Hn) HS HO.
  assert (G : forall s, match sel_deg1 fails a s with Ok _ => False | Err _ => True end).
  { intros s. unfold sel_deg1, is, geocenter_branch. rewrite Ht. destruct t as [|ch t]; [contradiction|].
    unfold offered in HO. cbn [existsb] in HO.
    destruct (String.eqb (deg1 a) "SLR") eqn:ES; [apply String.eqb_eq in ES; contradiction|].
    destruct (String.eqb (deg1 a) "Tellus"), (String.eqb (deg1 a) "SLF"), (String.eqb (deg1 a) "UCI"), (String.eqb (deg1 a) "Swenson"), (String.eqb (deg1 a) "GFZ");
    cbn [orb] in HO |- *; try discriminate HO;
    repeat match goal with
    | |- context [if (?b || ?c)%bool then _ else _] => destruct (b || c)%bool
    | |- context [fails ?r ?p] => destruct (fails r p) end; exact I. }
  assert (N : forall s, selection fails a <> Ok s).
  { intros s H. unfold selection in H.
    repeat match type of H with bind ?x _ = _ => destruct x eqn:?X; cbn [bind] in H; [|discriminate] end.
    match goal with X : sel_deg1 _ _ ?z = Ok _ |- _ => specialize (G z); rewrite X in G; exact G end. }
  split; [exact N|]. intros HF HR. destruct (selection fails a) as [s|e] eqn:E; [exfalso; exact (N s eq_refl)|].
  destruct (C142_failure _ _ _ E) as [(x & r & p & _ & _ & K)|[(K1 & K2 & _)|(c & _ & _ & _ & [->|(r & t' & _ & K)])]].
  - rewrite HF in K. discriminate.
  - exfalso. auto.
  - reflexivity.
  - rewrite HF in K. discriminate.
Qed.
Definition with_file (a : sel) (f : user_file) : sel := mksel (proc a) (drel a) (slr_c20 a) (slr_21 a) (slr_22 a) (slr_c30 a) (slr_c40 a) (slr_c50 a) (deg1 a) f (atm a) (pole a).
(** The geocenter of SLR takes no file of the user: it is ignored without notice. *)
Theorem C142_slr_file : forall fails a f, deg1 a = "SLR" -> selection fails (with_file a f) = selection fails a.
Proof. intros fails [] f H. cbn in H. subst. reflexivity. Qed.
(** Centers that are not offered for a coefficient are ignored without notice: as if nothing had been chosen. *)
Definition or_none (o : list string) (c : string) : string := if offered c o then c else "".
Definition normal (a : sel) : sel :=
  mksel (proc a) (drel a) (or_none ["CSR"; "GFZ"; "GSFC"] (slr_c20 a)) (or_none ["CSR"; "GFZ"; "GSFC"] (slr_21 a)) (or_none ["CSR"; "GSFC"] (slr_22 a))
    (or_none ["CSR"; "GFZ"; "GSFC"; "LARES"] (slr_c30 a)) (or_none ["CSR"; "GSFC"; "LARES"] (slr_c40 a)) (or_none ["CSR"; "GSFC"; "LARES"] (slr_c50 a))
    (or_none ["GFZ"; "SLR"; "SLF"; "Swenson"; "Tellus"; "UCI"] (deg1 a)) (deg1_file a) (atm a) (pole a).
Ltac ornone c o f :=
  destruct (offered c o) eqn:O; unfold or_none; rewrite O; [reflexivity|]; unfold offered in O; cbn [existsb] in O;
  repeat (apply orb_false_iff in O; destruct O as [?O1 O]); unfold is;
  repeat match goal with H : String.eqb c _ = false |- _ => rewrite H; clear H end; reflexivity.
Theorem C142_unsupported : forall fails a, selection fails a = selection fails (normal a).
Proof.
  intros fails a. unfold selection.
  assert (E1 : forall s, sel_c20 fails (normal a) s = sel_c20 fails a s) by (intros s; unfold normal, sel_c20; cbn [slr_c20 drel]; ornone (slr_c20 a) ["CSR"; "GFZ"; "GSFC"] 0).
  assert (E2 : forall s, sel_21 fails (normal a) s = sel_21 fails a s) by (intros s; unfold normal, sel_21; cbn [slr_21 drel]; ornone (slr_21 a) ["CSR"; "GFZ"; "GSFC"] 0).
  assert (E3 : forall s, sel_22 fails (normal a) s = sel_22 fails a s) by (intros s; unfold normal, sel_22; cbn [slr_22 drel]; ornone (slr_22 a) ["CSR"; "GSFC"] 0).
  assert (E4 : forall s, sel_c30 fails (normal a) s = sel_c30 fails a s) by (intros s; unfold normal, sel_c30; cbn [slr_c30 drel]; ornone (slr_c30 a) ["CSR"; "GFZ"; "GSFC"; "LARES"] 0).
  assert (E5 : forall s, sel_c40 fails (normal a) s = sel_c40 fails a s) by (intros s; unfold normal, sel_c40; cbn [slr_c40 drel]; ornone (slr_c40 a) ["CSR"; "GSFC"; "LARES"] 0).
  assert (E6 : forall s, sel_c50 fails (normal a) s = sel_c50 fails a s) by (intros s; unfold normal, sel_c50; cbn [slr_c50 drel]; ornone (slr_c50 a) ["CSR"; "GSFC"; "LARES"] 0).
  assert (E7 : forall s, sel_deg1 fails (normal a) s = sel_deg1 fails a s) by (intros s; unfold normal, sel_deg1; cbn [deg1 deg1_file proc drel]; ornone (deg1 a) ["GFZ"; "SLR"; "SLF"; "Swenson"; "Tellus"; "UCI"] 0).
  repeat first [rewrite E1 | rewrite E2 | rewrite E3 | rewrite E4 | rewrite E5 | rewrite E6 | rewrite E7
    | match goal with |- bind ?x _ = bind ?x _ => destruct x; cbn [bind]; [|reflexivity] end]. reflexivity.
Qed.

(** Instances. *)
Definition usual : sel := mksel "JPL" "RL06" "GSFC" "GFZ" "" "GSFC" "" "XYZ" "Tellus" NoFile true false.
Definition readable : reader -> path -> option exn := fun _ _ => None.
Example usual_title : exists s, selection readable usual = Ok s /\ title s = "_wGSFC_C20_wGFZ_21_wGSFC_C30_wTellus_DEG1_wATM" /\ List.length (reads s) = 4 /\
  In (RdTellus true, InBase ["geocenter"] "TN-13_GEOC_JPL_RL06.txt") (reads s).
Proof. eexists. split; [reflexivity|]. split; [reflexivity|]. split; [reflexivity|]. cbn. tauto. Qed.
Example usual_missing : selection (fun r _ => match r with RdC30 => Some FileNotFound | _ => None end) usual = Err FileNotFound.
Proof. reflexivity. Qed.
Example lares_instance : exists s, selection readable (mksel "CSR" "RL05" "CSR" "" "" "LARES" "" "" "UCI" (APath "/data" "deg1.txt") false true) = Ok s /\
  In ("SLR_C30", ("CSR LARES", "C30_LARES_filtered.txt")) (attrs s) /\ In ("geocenter", ("UCI", "deg1.txt")) (attrs s).
Proof. eexists. split; [reflexivity|]. cbn. tauto. Qed.
Example release_instance : slr_c20 (mksel "CSR" "RL07" "CSR" "" "" "" "" "" "" NoFile false false) = "CSR" /\ ~ known_release "RL07".
Proof. split; [reflexivity|]. unfold known_release. cbn. intuition discriminate. Qed.
Example text_instance : selection readable (mksel "CSR" "RL06" "" "" "" "" "" "" "Swenson" (AStr "deg1.txt") false false) = Err AttributeError.
Proof. reflexivity. Qed.
