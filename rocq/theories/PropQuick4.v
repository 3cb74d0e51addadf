(** C112, fourth part: failed runs, several files, refuted claims, examples. *)
From Coq Require Import Reals Lra String List Permutation Sorted.
From Verif Require Import Base DestripeModel DestripeProofs LinAlg RegressModel RegressProofs PropRegress PropRegress2 PropPiecewise TsModel.
From Verif Require Import TrendMapModel PropTrendMap PropTrendMap2 PropTrendMap3 PropTrendMap4 QuickModel PropQuick PropQuick2 PropQuick3.
Close Scope Z_scope.
Open Scope R_scope.

(** ** which fit: a breakpoint wins over an order *)
Theorem C112_breakpoint_wins : forall erf tppf old rows o m cycles stream, run_regress erf tppf old rows (Some o) (Some m) cycles stream = run_regress erf tppf old rows None (Some m) cycles stream.
Proof. reflexivity. Qed.
(** ** a run that fails: the standard output alone never changes files; otherwise the old summary is kept if no fit is asked for, or in a breakpoint run with fewer than two rows, and is lost in all other cases: the new one never has its closing lines *)
Theorem C112_failed : forall erf tppf old rows order bp cycles stream e, r_res (run_regress erf tppf old rows order bp cycles stream) = Err e ->
  let x := run_regress erf tppf old rows order bp cycles stream in
  (stream = true -> r_file x = old) /\
  (stream = false -> r_out x = [] /\
     (if match bp, order with None, None => true | Some _, _ => (List.length rows <? 2)%nat | None, Some _ => false end then r_file x = old
      else exists ls, r_file x = Some ls /\ forall y, In y ls -> ~ is_closing y)) /\
  forall y, In y (r_out x) -> ~ is_closing y.
Proof.
  intros erf tppf old rows order bp cycles stream e. cbv zeta. unfold run_regress.
  assert (S : forall q ls e, summary order bp cycles q = (ls, Err e) -> forall y, In y ls -> ~ is_closing y).
  { intros q ls e'. unfold summary, coef_lines. destruct (_ <=? _)%nat; [discriminate|]. intros E. injection E as <- _. intros y [<-|Hy]; [intros []|]. apply in_map_iff in Hy. destruct Hy as (k & <- & _). intros []. }
  destruct (Nat.ltb_spec (List.length rows) 2) as [L|L]; cbn [andb].
  - destruct bp as [m|]; [cbn; destruct stream; intuition discriminate|]. destruct order as [o|]; [|cbn; destruct stream; intuition discriminate]. cbn. destruct stream; intros _; repeat split; try discriminate; try (intros y []); try reflexivity. exists []. split; [reflexivity|intros y []].
  - destruct (fit_rows erf tppf rows order bp cycles) as [q|e'] eqn:EQ.
    + destruct (summary order bp cycles q) as (ls & r) eqn:ES. intros H. assert (HR : r = Err e \/ (bp = None /\ order = None)) by (destruct bp as [m|]; [|destruct order as [o|]; [|right; auto]]; left; destruct stream; exact H).
      destruct HR as [-> | (-> & ->)]; [|discriminate EQ]. pose proof (S q ls e ES) as SS. assert (GN : (bp = None /\ order = None) -> False) by (intros (-> & ->); discriminate EQ).
      destruct bp as [m|]; [|destruct order as [o|]; [|exfalso; apply GN; auto]]; destruct stream; cbn [r_file r_out]; repeat split; try discriminate; try exact SS; try (intros y []); exists ls; auto.
    + intros H. destruct bp as [m|]; [|destruct order as [o|]; [|cbn; destruct stream; intuition discriminate]]; destruct stream; cbn [r_file r_out]; repeat split; try discriminate; try (intros y []); exists []; (split; [reflexivity|intros y []]).
Qed.
Print Assumptions C112_failed.
(** ** several files *)
Definition same_stem (files : list input) (s : string) : Prop := exists f, In f files /\ i_stem f = s.
Lemma main_spec erf tppf order bp cycles files : forall store st out, NoDup (map i_stem files) -> main erf tppf files order bp cycles false store = (st, out, Ok tt) ->
  out = [] /\ (forall f, In f files -> exists ls, prints (run_regress erf tppf (store (i_stem f)) (i_rows f) order bp cycles false) (store (i_stem f)) false ls /\ st (i_stem f) = Some ls) /\ forall s, ~ same_stem files s -> st s = store s.
Proof.
  induction files as [|f files IH]; intros store st out ND E; cbn [main] in E.
  - injection E as <- <-. split; [reflexivity|]. split; [intros f []|reflexivity].
  - set (r := run_regress erf tppf (store (i_stem f)) (i_rows f) order bp cycles false) in *. destruct (r_res r) as [[]|e] eqn:ER; [|discriminate E].
    destruct (main erf tppf files order bp cycles false _) as ((st', out'), res') eqn:EM. injection E as <- <- ->. cbn [map] in ND. inversion ND as [|? ? NI ND']; subst. destruct (IH _ _ _ ND' EM) as (-> & H1 & H2).
    assert (PR : exists ls, prints r (store (i_stem f)) false ls).
    { unfold prints. rewrite ER. unfold r in *. clear - ER. unfold run_regress in *. destruct bp as [m|]; [|destruct order as [o|]; [|discriminate ER]]; (destruct (_ && _); [discriminate ER|]); (destruct (_ <? _)%nat; [discriminate ER|]); destruct (fit_rows _ _ _ _ _ _); try discriminate ER; destruct (summary _ _ _ _) as (ls & rr); cbn in *; subst; exists ls; auto. }
    destruct PR as (ls & PR). assert (OUT : r_out r = []) by (destruct PR as (_ & _ & X); exact X). split; [rewrite OUT; reflexivity|]. split.
    + intros g [<-|Hg].
      * exists ls. split; [exact PR|]. rewrite H2; [rewrite String.eqb_refl; destruct PR as (_ & X & _); exact X|]. intros (g & Hg & Eg). apply NI. rewrite <- Eg. apply in_map. exact Hg.
      * destruct (H1 g Hg) as (lg & PG & SG). assert (N : String.eqb (i_stem g) (i_stem f) = false) by (apply String.eqb_neq; intros E; apply NI; rewrite <- E; apply in_map; exact Hg). rewrite N in PG. exists lg. auto.
    + intros s Hs. rewrite H2; [|intros (g & Hg & Eg); apply Hs; exists g; split; [right; exact Hg|exact Eg]]. destruct (String.eqb_spec s (i_stem f)) as [->|]; [exfalso; apply Hs; exists f; split; [left; reflexivity|reflexivity]|reflexivity].
Qed.
(** every file has its own summary, and no other file is changed *)
Theorem C112_files : forall erf tppf order bp cycles files store st out, NoDup (map i_stem files) -> main erf tppf files order bp cycles false store = (st, out, Ok tt) ->
  out = [] /\ (forall f, In f files -> exists ls, prints (run_regress erf tppf (store (i_stem f)) (i_rows f) order bp cycles false) (store (i_stem f)) false ls /\ st (i_stem f) = Some ls) /\ forall s, ~ same_stem files s -> st s = store s.
Proof. intros. eapply main_spec; eassumption. Qed.
Print Assumptions C112_files.
(** to the standard output: all summaries in the order of the files, no file is changed *)
Theorem C112_stream : forall erf tppf order bp cycles files store st out, main erf tppf files order bp cycles true store = (st, out, Ok tt) ->
  (forall s, st s = store s) /\ exists lss, Forall2 (fun f ls => prints (run_regress erf tppf None (i_rows f) order bp cycles true) None true ls) files lss /\ out = List.concat lss.
Proof.
  intros erf tppf order bp cycles files. induction files as [|f files IH]; intros store st out E; cbn [main] in E.
  - injection E as <- <-. split; [reflexivity|]. exists []. split; [constructor|reflexivity].
  - set (r := run_regress erf tppf (store (i_stem f)) (i_rows f) order bp cycles true) in *. destruct (r_res r) as [[]|e] eqn:ER; [|discriminate E].
    destruct (main erf tppf files order bp cycles true _) as ((st', out'), res') eqn:EM. injection E as <- <- ->. destruct (IH _ _ _ EM) as (H1 & lss & H2 & ->).
    assert (PR : exists ls, prints (run_regress erf tppf None (i_rows f) order bp cycles true) None true ls /\ r_out r = ls /\ r_file r = store (i_stem f)).
    { unfold prints. unfold r in *. clear - ER. unfold run_regress in *. destruct bp as [m|]; [|destruct order as [o|]; [|discriminate ER]]; (destruct (_ && _); [discriminate ER|]); (destruct (_ <? _)%nat; [discriminate ER|]); destruct (fit_rows _ _ _ _ _ _); try discriminate ER; destruct (summary _ _ _ _) as (ls & rr); cbn in *; subst; exists ls; auto. }
    destruct PR as (ls & PR & OU & FI). split; [intros s; rewrite H1; destruct (String.eqb_spec s (i_stem f)) as [->|]; [exact FI|reflexivity]|]. exists (ls :: lss). split; [constructor; assumption|]. cbn [List.concat]. rewrite OU. reflexivity.
Qed.
Print Assumptions C112_stream.
(** one file that fails ends the program: the files before it have their summaries, the files after it are not read *)
Theorem C112_stops : forall erf tppf order bp cycles files store st out e, NoDup (map i_stem files) -> main erf tppf files order bp cycles false store = (st, out, Err e) ->
  exists before f after, files = (before ++ f :: after)%list /\ r_res (run_regress erf tppf (store (i_stem f)) (i_rows f) order bp cycles false) = Err e /\
  (forall g, In g before -> exists ls, prints (run_regress erf tppf (store (i_stem g)) (i_rows g) order bp cycles false) (store (i_stem g)) false ls /\ st (i_stem g) = Some ls) /\ forall g, In g after -> st (i_stem g) = store (i_stem g).
Proof.
  intros erf tppf order bp cycles files. induction files as [|f files IH]; intros store st out e ND E; cbn [main] in E; [discriminate E|].
  set (r := run_regress erf tppf (store (i_stem f)) (i_rows f) order bp cycles false) in *. cbn [map] in ND. inversion ND as [|? ? NI ND']; subst. destruct (r_res r) as [[]|e'] eqn:ER.
  - destruct (main erf tppf files order bp cycles false _) as ((st', out'), res') eqn:EM. injection E as <- <- ->. destruct (IH _ _ _ _ ND' EM) as (before & g & after & EF & RG & HB & HA).
    assert (N : forall h, In h files -> String.eqb (i_stem h) (i_stem f) = false) by (intros h Hh; apply String.eqb_neq; intros E; apply NI; rewrite <- E; apply in_map; exact Hh).
    assert (IB : forall h, In h before \/ h = g \/ In h after -> In h files) by (intros h H; rewrite EF; apply in_app_iff; cbn; intuition).
    assert (PR : exists ls, prints r (store (i_stem f)) false ls).
    { unfold prints. rewrite ER. unfold r in *. clear - ER. unfold run_regress in *. destruct bp as [m|]; [|destruct order as [o|]; [|discriminate ER]]; (destruct (_ && _); [discriminate ER|]); (destruct (_ <? _)%nat; [discriminate ER|]); destruct (fit_rows _ _ _ _ _ _); try discriminate ER; destruct (summary _ _ _ _) as (ls & rr); cbn in *; subst; exists ls; auto. }
    destruct PR as (ls & PR). exists (f :: before), g, after. split; [rewrite EF; reflexivity|]. rewrite N in RG by (apply IB; auto). split; [exact RG|]. split.
    + intros h [<-|Hh].
      * exists ls. split; [exact PR|]. assert (K : forall fs store st out rr, main erf tppf fs order bp cycles false store = (st, out, rr) -> forall s, ~ same_stem fs s -> st s = store s).
        { clear. induction fs as [|x fs IHf]; intros store st out rr E s Hs; cbn [main] in E; [injection E as <- _ _; reflexivity|]. assert (NE : String.eqb s (i_stem x) = false) by (apply String.eqb_neq; intros ->; apply Hs; exists x; split; [left; reflexivity|reflexivity]).
          destruct (r_res _) in E; [|injection E as <- _ _; rewrite NE; reflexivity]. destruct (main erf tppf fs order bp cycles false _) as ((st', out'), res') eqn:EM. injection E as <- _ _. rewrite (IHf _ _ _ _ EM s); [rewrite NE; reflexivity|]. intros (y & Hy & Ey). apply Hs. exists y. split; [right; exact Hy|exact Ey]. }
        rewrite (K _ _ _ _ _ EM); [rewrite String.eqb_refl; destruct PR as (_ & X & _); exact X|]. intros (y & Hy & Ey). apply NI. rewrite <- Ey. apply in_map. exact Hy.
      * destruct (HB h Hh) as (lh & PH & SH). rewrite N in PH by (apply IB; auto). exists lh. auto.
    + intros h Hh. rewrite HA by exact Hh. rewrite N by (apply IB; auto). reflexivity.
  - injection E as <- _ ->. exists [], f, files. split; [reflexivity|]. split; [exact ER|]. split; [intros g []|]. intros g Hg. destruct (String.eqb_spec (i_stem g) (i_stem f)) as [E|]; [|reflexivity]. exfalso. apply NI. rewrite <- E. apply in_map. exact Hg.
Qed.
Print Assumptions C112_stops.
(** ** refuted: two input files whose names differ only in the extension: the second summary replaces the first *)
Theorem C112_stem_refuted : forall erf tppf order bp cycles f g store st out, i_stem f = i_stem g -> main erf tppf [f; g] order bp cycles false store = (st, out, Ok tt) ->
  exists lf lg, prints (run_regress erf tppf (store (i_stem f)) (i_rows f) order bp cycles false) (store (i_stem f)) false lf /\ prints (run_regress erf tppf (store (i_stem g)) (i_rows g) order bp cycles false) (store (i_stem g)) false lg /\
  st (i_stem f) = Some lg /\ forall s, s <> i_stem f -> st s = store s.
Proof.
  intros erf tppf order bp cycles f g store st out ES E. cbn [main] in E.
  assert (PR : forall old rows, r_res (run_regress erf tppf old rows order bp cycles false) = Ok tt -> exists ls, r_file (run_regress erf tppf old rows order bp cycles false) = Some ls /\ forall old', prints (run_regress erf tppf old' rows order bp cycles false) old' false ls).
  { clear E. intros old rows ER. unfold prints, run_regress in *. destruct bp as [m|]; [|destruct order as [o|]; [|discriminate ER]]; (destruct (_ && _); [discriminate ER|]); (destruct (_ <? _)%nat; [discriminate ER|]); destruct (fit_rows _ _ _ _ _ _); try discriminate ER; destruct (summary _ _ _ _) as (ls & rr); cbn in *; subst; exists ls; auto. }
  destruct (r_res (run_regress erf tppf (store (i_stem f)) (i_rows f) order bp cycles false)) as [[]|] eqn:R1; [|discriminate E]. destruct (PR _ _ R1) as (lf & F1 & P1). rewrite <- ES, String.eqb_refl in E.
  match type of E with context [r_res ?r] => destruct (r_res r) as [[]|] eqn:R2 end; [|cbn in E; discriminate E]. destruct (PR _ _ R2) as (lg & F2 & P2). injection E as <- _. exists lf, lg. split; [apply P1|]. split; [apply P2|]. rewrite String.eqb_refl. split; [exact F2|].
  intros s Hs. destruct (String.eqb_spec s (i_stem f)); [contradiction|reflexivity].
Qed.
Print Assumptions C112_stem_refuted.
(** ** refuted: a period the program has no label for.  No run ends normally; one that can be fitted leaves a summary that ends with the polynomial *)
Theorem C112_unknown_refuted : forall erf tppf old rows order bp cycles stream, (exists c, In c cycles /\ ~ known c) -> forall ls, ~ prints (run_regress erf tppf old rows order bp cycles stream) old stream ls.
Proof. intros erf tppf old rows order bp cycles stream (c & Hc & NK) ls P. destruct (run_known _ _ _ _ _ _ _ _ _ P) as (_ & _ & _ & _ & K). apply NK, K, Hc. Qed.
Print Assumptions C112_unknown_refuted.
Lemma unknown_facts p : ~ known p -> stays p = true /\ labels_of p = [] /\ amps_of p = [] /\ forall t, terms_of t p = [].
Proof.
  intros NK. assert (T : tides_of p = []). { destruct (tides_of p) as [|nd l] eqn:T; [reflexivity|]. exfalso. apply NK. right; right. exists nd. apply tides_in. rewrite T. left; reflexivity. }
  unfold stays, labels_of, amps_of, terms_of, is_half, is_one. rewrite T. destruct (Req_EM_T p (1 / 2)) as [E|_]; [exfalso; apply NK; left; exact E|]. destruct (Req_EM_T p 1) as [E|_]; [exfalso; apply NK; right; left; exact E|]. repeat split.
Qed.
Theorem C112_unknown_file_refuted : forall erf tppf old rows o p, ~ known p -> (o + 3 < List.length rows)%nat ->
  apart rows (map (fun k x => (x - mean_of_times rows) ^ k) (seq 0 (o + 1)) ++ [fun x => sin (2 * PI * x / p); fun x => cos (2 * PI * x / p)])%list ->
  let x := run_regress erf tppf old rows (Some o) None [p] false in
  r_res x = Err IndexError /\ r_out x = [] /\ exists est se conf, r_file x = Some (Formula (map Poly (seq 0 (o + 1))) :: map (fun k => Coef (Poly k) (est k) (se k) (conf k)) (seq 0 (o + 1))).
Proof.
  intros erf tppf old rows o p NK LN AP. cbv zeta. destruct (unknown_facts p NK) as (SP & LP & _ & TP). set (t := map row_time rows). assert (LT : List.length t = List.length rows) by apply map_length. assert (MT : mean_ t = mean_of_times rows) by (unfold t; rewrite mean_sum, map_length; reflexivity).
  assert (FS : filter stays [p] = [p]) by (cbn [filter]; rewrite SP; reflexivity). assert (FT : flat_map (terms_of t) [p] = []) by (cbn [flat_map]; rewrite TP; reflexivity). assert (FL : flat_map labels_of [p] = []) by (cbn [flat_map]; rewrite LP; reflexivity).
  set (D := design o (mean_ t) t [p] []). set (fs := (map (fun k x => (x - mean_of_times rows) ^ k) (seq 0 (o + 1)) ++ [fun x => sin (2 * PI * x / p); fun x => cos (2 * PI * x / p)])%list) in *.
  assert (F : Forall2 (column_is t) D fs).
  { unfold D, design, fs. rewrite MT. apply Forall2_app.
    - generalize (seq 0 (o + 1)). induction l as [|k l IH]; cbn [map]; constructor; [|exact IH]. intros i Hi. rewrite (nth_map _ t i 0) by exact Hi. reflexivity.
    - cbn [cycle_cols flat_map app]. repeat constructor; intros i Hi; rewrite (nth_map _ t i 0) by exact Hi; reflexivity. }
  assert (CO : columns_ok D (List.length rows)). { intros c Hc. unfold D, design in Hc. apply in_app_iff in Hc. destruct Hc as [Hc|Hc]; [apply in_map_iff in Hc; destruct Hc as (k & <- & _); rewrite map_length; exact LT|]. cbn in Hc. destruct Hc as [<-|[<-|[]]]; rewrite map_length; exact LT. }
  assert (LF : List.length fs = (o + 3)%nat) by (unfold fs; rewrite app_length, map_length, seq_length; cbn; lia).
  destruct (proj2 (core_returns_rows D rows fs F CO)) as (f & EF); [split; [exact AP|lia]|].
  destruct (regress_any erf tppf t (map row_value rows) o [p] [] f ltac:(lia)) as (g & G); [rewrite LT; exact EF|].
  assert (EQ : exists q, fit_rows erf tppf rows (Some o) None [p] = Ok q) by (unfold fit_rows; fold t; rewrite FS, FT, G; eexists; reflexivity). destruct EQ as (q & EQ). pose proof (fit_count _ _ _ _ _ _ _ EQ) as LB. unfold n_cols in LB. fold t in LB. rewrite FS, FT, cycle_len in LB. cbn [first_labels List.length] in LB. rewrite map_length, seq_length in LB.
  unfold run_regress. destruct (Nat.ltb_spec (List.length rows) 2) as [L|L]; [lia|]. cbn [andb]. rewrite EQ. unfold summary, coef_lines. rewrite FL. cbn [map first_labels]. rewrite app_nil_r, map_length, seq_length. destruct (Nat.leb_spec (List.length (q_beta q)) (o + 1)); [lia|]. cbn [r_res r_out r_file]. split; [reflexivity|]. split; [reflexivity|].
  exists (at_ (q_beta q)), (at_ (q_std q)), (at_ (q_err q)). rewrite Nat.min_l by lia. f_equal. f_equal. apply map_ext_in. intros k Hk. apply in_seq in Hk. rewrite (nth_map Poly _ k 0%nat) by (rewrite seq_length; lia). rewrite seq_nth by lia. reflexivity.
Qed.
Print Assumptions C112_unknown_file_refuted.
(** ** refuted: an aliasing period before the annual one.  The same numbers as with the other order of periods, but under other labels *)
Theorem C112_order_refuted : forall erf tppf old rows order bp a nd stream ls, In nd alias_days -> stands_for a (snd nd) -> prints (run_regress erf tppf old rows order bp [a; 1] stream) old stream ls ->
  in_order [1; a] /\ exists ls', prints (run_regress erf tppf old rows order bp [1; a] stream) old stream ls' /\
  let n := fst nd in let moved l l' := exists est se conf, In (Coef (Named l) est se conf) ls' /\ In (Coef (Named l') est se conf) ls in
  moved "AS"%string (n ++ "SGRC")%string /\ moved "AC"%string (n ++ "CGRC")%string /\ moved (n ++ "SGRC")%string (n ++ "SGFO")%string /\ moved (n ++ "CGRC")%string (n ++ "CGFO")%string /\
  moved (n ++ "SGFO")%string "AS"%string /\ moved (n ++ "CGFO")%string "AC"%string.
Proof.
  intros erf tppf old rows order bp a nd stream ls Hn Hs P. destruct (run_known _ _ _ _ _ _ _ _ _ P) as (q & EQ & ES & LB & _). destruct (summary_ok _ _ _ _ _ ES) as (_ & EL). cbv zeta in EL.
  assert (HA : in_order [1; a]). { exists [1], [a]. split; [reflexivity|]. split; [intros y [<-|[]]; right; reflexivity|]. intros y [<-|[]]. exists nd. auto. } split; [exact HA|].
  assert (S1 : stays 1 = true) by (unfold stays; rewrite (tides_none 1); auto). assert (Sa : stays a = false) by (unfold stays; rewrite (tides_one a nd Hn Hs); reflexivity).
  assert (T1 : forall t, terms_of t 1 = []) by (intros t; unfold terms_of; rewrite (tides_none 1); auto).
  assert (EQ' : fit_rows erf tppf rows order bp [1; a] = Ok q) by (rewrite <- EQ; unfold fit_rows; cbn [filter flat_map]; rewrite S1, Sa, T1; reflexivity).
  destruct (summary_known order bp [1; a] q (map row_time rows) (fit_count _ _ _ _ _ _ _ EQ') (in_order_known _ HA)) as (ls' & ES'). exists ls'. apply run_prints in P. destruct P as (_ & L2 & _). split; [apply run_prints; exists q; auto|]. destruct (summary_ok _ _ _ _ _ ES') as (_ & EL'). cbv zeta in EL'.
  assert (L1 : labels_of 1 = ["AS"; "AC"]%string). { unfold labels_of, is_half, is_one. rewrite (tides_none 1) by auto. destruct (Req_EM_T 1 (1 / 2)); [exfalso; lra|]. destruct (Req_EM_T 1 1); [reflexivity|contradiction]. }
  assert (La : labels_of a = [fst nd ++ "SGRC"; fst nd ++ "CGRC"; fst nd ++ "SGFO"; fst nd ++ "CGFO"]%string). { unfold labels_of. destruct (alias_not a nd Hn Hs) as (-> & ->). rewrite (tides_one a nd Hn Hs). reflexivity. }
  set (base := List.length (first_labels order bp)) in *.
  assert (A1 : labels_all order bp [a; 1] = (first_labels order bp ++ map Named [fst nd ++ "SGRC"; fst nd ++ "CGRC"; fst nd ++ "SGFO"; fst nd ++ "CGFO"; "AS"; "AC"]%string)%list) by (unfold labels_all; cbn [flat_map]; rewrite L1, La; reflexivity).
  assert (A2 : labels_all order bp [1; a] = (first_labels order bp ++ map Named ["AS"; "AC"; fst nd ++ "SGRC"; fst nd ++ "CGRC"; fst nd ++ "SGFO"; fst nd ++ "CGFO"]%string)%list) by (unfold labels_all; cbn [flat_map]; rewrite L1, La; reflexivity).
  rewrite A1 in EL, LB. rewrite A2 in EL'. rewrite app_length in LB. fold base in LB. cbn [map List.length] in LB. cbv zeta.
  assert (G : forall j l l', (j < 6)%nat -> nth j (map Named [fst nd ++ "SGRC"; fst nd ++ "CGRC"; fst nd ++ "SGFO"; fst nd ++ "CGFO"; "AS"; "AC"]%string) Bent = Named l' -> nth j (map Named ["AS"; "AC"; fst nd ++ "SGRC"; fst nd ++ "CGRC"; fst nd ++ "SGFO"; fst nd ++ "CGFO"]%string) Bent = Named l ->
    exists est se conf, In (Coef (Named l) est se conf) ls' /\ In (Coef (Named l') est se conf) ls).
  { intros j l l' Hj E1 E2. exists (at_ (q_beta q) (base + j)), (at_ (q_std q) (base + j)), (at_ (q_err q) (base + j)).
    split; [rewrite EL'|rewrite EL]; right; apply in_app_iff; left; apply in_map_iff; exists (base + j)%nat; (split; [|apply in_seq; lia]); f_equal; (rewrite app_nth2 by (fold base; lia)); fold base; replace (base + j - base)%nat with j by lia; assumption. }
  repeat split; [apply (G 0%nat)|apply (G 1%nat)|apply (G 2%nat)|apply (G 3%nat)|apply (G 4%nat)|apply (G 5%nat)]; solve [lia|reflexivity].
Qed.
Print Assumptions C112_order_refuted.
(** ** examples: eight rows with arbitrary values, annual and M2 aliasing terms in both orders; nine rows with a break in the fifth; an unknown period *)
Definition ex_rows (v : Z -> R) : list row := map (fun m => (m, ex_tm m, v m)) ex_months.
Definition ex_rows9 (v : Z -> R) : list row := map (fun m => (m, ex_quarter m, v m)) ex_months9.
Lemma ex_named l : In l (Poly 0 :: map Named ["AS"; "AC"; "M2SGRC"; "M2CGRC"; "M2SGFO"; "M2CGFO"]%string) <-> (exists k, l = Poly k /\ (k <= 0)%nat) \/ exists s, l = Named s /\ periodic [1; ex_m2] s.
Proof.
  assert (HP : forall s, In s ["AS"; "AC"; "M2SGRC"; "M2CGRC"; "M2SGFO"; "M2CGFO"]%string <-> periodic [1; ex_m2] s).
  { intros s. rewrite <- periodic_labels. cbn [flat_map]. assert (L1 : labels_of 1 = ["AS"; "AC"]%string). { unfold labels_of, is_half, is_one. rewrite (tides_none 1) by auto. destruct (Req_EM_T 1 (1 / 2)); [exfalso; lra|]. destruct (Req_EM_T 1 1); [reflexivity|contradiction]. }
    assert (La : labels_of ex_m2 = ["M2SGRC"; "M2CGRC"; "M2SGFO"; "M2CGFO"]%string). { unfold labels_of. destruct (alias_not ex_m2 _ ex_in ex_stands) as (-> & ->). rewrite (tides_one ex_m2 _ ex_in ex_stands). reflexivity. }
    rewrite L1, La. reflexivity. }
  split.
  - intros [<-|H]; [left; exists 0%nat; auto|]. right. apply in_map_iff in H. destruct H as (s & <- & H). exists s. split; [reflexivity|]. apply HP. exact H.
  - intros [(k & -> & H)|(s & -> & H)]; [left; f_equal; lia|right; apply in_map; apply HP; exact H].
Qed.
Theorem C112_example : forall erf tppf v,
  (exists ls, prints (run_regress erf tppf None (ex_rows v) (Some 0%nat) None [1; ex_m2] false) None false ls) /\
  (exists ls, prints (run_regress erf tppf None (ex_rows v) (Some 0%nat) None [ex_m2; 1] false) None false ls) /\
  (increasing (ex_rows9 v) /\ exists ls, prints (run_regress erf tppf None (ex_rows9 v) None (Some 8%Z) [1] false) None false ls) /\
  r_res (run_regress erf tppf None (ex_rows9 v) None (Some 13%Z) [1] false) = Err TypeError /\
  (~ known 2 /\ r_res (run_regress erf tppf None (ex_rows9 v) (Some 1%nat) None [2] false) = Err IndexError).
Proof.
  intros erf tppf v. destruct ex_order as (HA & HD).
  assert (P1 : exists ls, prints (run_regress erf tppf None (ex_rows v) (Some 0%nat) None [1; ex_m2] false) None false ls).
  { apply (C112_returns erf tppf None (ex_rows v) 0 [1; ex_m2] false HA HD). split; [unfold ex_rows; rewrite map_length; cbn; lia|]. eexists. split; [|split; [exact ex_named|split; [unfold ex_rows; rewrite map_length; cbn; lia|]]].
    - constructor; [intros H; apply in_map_iff in H; destruct H as (s & H & _); discriminate H|]. apply FinFun.Injective_map_NoDup; [intros a b E; injection E; auto|]. apply nodupb_ok. reflexivity.
    - intros b Hb. pose proof (ex_apart (mean_of_times (ex_rows v)) (fun l => b (posn l ex_labels))) as T.
      assert (Z : forall k, (k < 7)%nat -> b k = 0).
      { intros k Hk. assert (ND : NoDup ex_labels) by (apply nodupb_ok; reflexivity). rewrite <- (posn_nth ex_labels k ND Hk). apply T; [|apply nth_In; exact Hk]. intros m Hm. specialize (Hb (m, ex_tm m, v m) ltac:(apply in_map_iff; exists m; auto)). unfold row_time in Hb. cbn [fst snd] in Hb.
        rewrite combined_mixture. etransitivity; [|exact Hb]. unfold mixture, ex_labels. cbn [map List.length]. rewrite !rsum_head. cbn [nth posn String.eqb Ascii.eqb Bool.eqb shown pow rsum]. change (meaning (mean_of_times (ex_rows v)) "x0" (ex_tm m)) with 1.
        change (meaning (mean_of_times (ex_rows v)) "AS") with (meaning 0 "AS"). change (meaning (mean_of_times (ex_rows v)) "AC") with (meaning 0 "AC"). change (meaning (mean_of_times (ex_rows v)) "M2SGRC") with (meaning 0 "M2SGRC"). change (meaning (mean_of_times (ex_rows v)) "M2CGRC") with (meaning 0 "M2CGRC").
        change (meaning (mean_of_times (ex_rows v)) "M2SGFO") with (meaning 0 "M2SGFO"). change (meaning (mean_of_times (ex_rows v)) "M2CGFO") with (meaning 0 "M2CGFO"). ring. }
      intros k Hk. apply Z. rewrite map_length in Hk. exact Hk. }
  split; [exact P1|]. split.
  { destruct P1 as (ls & P). destruct (run_known _ _ _ _ _ _ _ _ _ P) as (q & EQ & ES & _ & K). apply run_prints in P. destruct P as (_ & L2 & _).
    assert (S1 : stays 1 = true) by (unfold stays; rewrite (tides_none 1); auto). assert (Sa : stays ex_m2 = false) by (unfold stays; rewrite (tides_one ex_m2 _ ex_in ex_stands); reflexivity). assert (T1 : forall t, terms_of t 1 = []) by (intros t; unfold terms_of; rewrite (tides_none 1); auto).
    assert (EQ' : fit_rows erf tppf (ex_rows v) (Some 0%nat) None [ex_m2; 1] = Ok q) by (rewrite <- EQ; unfold fit_rows; cbn [filter flat_map]; rewrite S1, Sa, T1; cbn [app]; rewrite ?app_nil_r; reflexivity).
    destruct (summary_known (Some 0%nat) None [ex_m2; 1] q (map row_time (ex_rows v)) (fit_count _ _ _ _ _ _ _ EQ')) as (ls' & ES'); [intros c Hc; apply K; cbn [In] in *; tauto|]. exists ls'. apply run_prints. exists q. auto. }
  assert (HA1 : in_order [1]). { exists [1], []. split; [reflexivity|]. split; [intros c [<-|[]]; auto|intros c []]. } assert (HD1 : distinct [1]) by (unfold distinct; constructor; constructor).
  assert (INC : increasing (ex_rows9 v)). { unfold increasing, ex_rows9. rewrite map_map. unfold row_time. cbn [fst snd]. unfold ex_months9. cbn [map]. unfold ex_quarter. repeat constructor; lra. }
  assert (LEN : List.length (ex_rows9 v) = 9%nat) by reflexivity.
  destruct (C112_breakpoint_returns erf tppf None (ex_rows9 v) None 8%Z [1] false HA1 HD1 INC) as (RET & _). destruct (C112_breakpoint_returns erf tppf None (ex_rows9 v) None 13%Z [1] false HA1 HD1 INC) as (_ & NONE).
  destruct quarters as ((q0 & q0') & (q1 & q1') & (q2 & q2') & (q3 & q3')).
  split; [split; [exact INC|]|split].
  - apply RET. split; [rewrite LEN; lia|]. exists (8%Z, ex_quarter 8, v 8%Z), ["AS"; "AC"]%string. split.
    { exists (map (fun m => (m, ex_quarter m, v m)) [4; 5; 6; 7]%Z), (map (fun m => (m, ex_quarter m, v m)) [9; 10; 11; 12]%Z). split; [reflexivity|]. split; [reflexivity|]. intros y Hy. cbn [map app In] in Hy. unfold row_month. repeat (destruct Hy as [<-|Hy]; [cbn [fst]; lia|]). destruct Hy. }
    split; [apply nodupb_ok; reflexivity|]. split.
    { intros l. unfold periodic. split; [intros Hl; right; left; split; [left; reflexivity|exact Hl]|]. intros [([HC|[]] & _)|[(_ & Hl)|(c & nd & [<-|[]] & H1 & H2 & _)]]; [exfalso; lra|exact Hl|exfalso; apply (not_alias 1 (or_intror eq_refl) nd H1 H2)]. }
    split; [rewrite LEN; cbn; lia|]. intros b H. unfold row_time in H at 1. cbn [fst snd] in H.
    assert (EV : forall m n q s c', In m ex_months9 -> (0 <= n)%Z -> IZR m / 4 = IZR n + q -> sin (2 * PI * q) = s -> cos (2 * PI * q) = c' -> b 0%nat + b 1%nat * (IZR m / 4) + b 2%nat * Rmax 0 (IZR m / 4 - 2) + b 3%nat * s + b 4%nat * c' = 0).
    { intros m n q s c' Im Hq EQ Es Ec. specialize (H (m, ex_quarter m, v m) ltac:(apply in_map_iff; exists m; auto)). unfold row_time in H. cbn [fst snd] in H. destruct (turns (2 * PI * (IZR m / 4)) n q Hq ltac:(rewrite EQ; reflexivity)) as (T1 & T2). rewrite <- Es, <- Ec, <- T1, <- T2.
      etransitivity; [|exact H]. unfold mixture, ramps. cbn [map List.length]. rewrite !rsum_head. cbn [nth rsum]. unfold ex_quarter. change (meaning 0 "AS" (IZR m / 4)) with (sin (2 * PI * (IZR m / 4))). change (meaning 0 "AC" (IZR m / 4)) with (cos (2 * PI * (IZR m / 4))). replace (8 / 4) with 2 by lra. ring. }
    pose proof (EV 4%Z 1%Z 0 _ _ ltac:(cbn; tauto) ltac:(lia) ltac:(lra) q0 q0') as E4. pose proof (EV 5%Z 1%Z (1 / 4) _ _ ltac:(cbn; tauto) ltac:(lia) ltac:(lra) q1 q1') as E5. pose proof (EV 6%Z 1%Z (1 / 2) _ _ ltac:(cbn; tauto) ltac:(lia) ltac:(lra) q2 q2') as E6.
    pose proof (EV 8%Z 2%Z 0 _ _ ltac:(cbn; tauto) ltac:(lia) ltac:(lra) q0 q0') as E8. pose proof (EV 12%Z 3%Z 0 _ _ ltac:(cbn; tauto) ltac:(lia) ltac:(lra) q0 q0') as E12. rewrite (Rmax_left 0 (4 / 4 - 2)) in E4 by lra. rewrite (Rmax_left 0 (5 / 4 - 2)) in E5 by lra. rewrite (Rmax_left 0 (6 / 4 - 2)) in E6 by lra. rewrite (Rmax_left 0 (8 / 4 - 2)) in E8 by lra. rewrite (Rmax_right 0 (12 / 4 - 2)) in E12 by lra.
    intros k Hk. cbn in Hk. destruct k as [|[|[|[|[|k]]]]]; try lia; lra.
  - apply NONE; [rewrite LEN; lia|]. intros x (l & r & E & EM & _). assert (In x (ex_rows9 v)) as Hx by (rewrite E; apply in_app_iff; right; left; reflexivity). unfold ex_rows9 in Hx. apply in_map_iff in Hx. destruct Hx as (m & <- & Hm). unfold row_month in EM. cbn [fst] in EM. subst m. cbn in Hm. lia.
  - assert (NK : ~ known 2). { intros [H|[H|(nd & H1 & H2)]]; [lra|lra|]. destruct (stands_bounds _ _ H2). unfold alias_days in H1. cbn [In] in H1. repeat (destruct H1 as [<-|H1]; [cbn [snd] in *; lra|]). destruct H1. }
    split; [exact NK|]. apply (C112_unknown_file_refuted erf tppf None (ex_rows9 v) 1 2 NK); [rewrite LEN; lia|]. intros b H. set (r := mean_of_times (ex_rows9 v)) in *.
    assert (EV : forall m n q s c', In m ex_months9 -> (0 <= n)%Z -> IZR m / 8 = IZR n + q -> sin (2 * PI * q) = s -> cos (2 * PI * q) = c' -> b 0%nat + b 1%nat * (IZR m / 4 - r) + b 2%nat * s + b 3%nat * c' = 0).
    { intros m n q s c' Im Hq EQ Es Ec. specialize (H (m, ex_quarter m, v m) ltac:(apply in_map_iff; exists m; auto)). unfold row_time in H. cbn [fst snd] in H. destruct (turns (2 * PI * (IZR m / 8)) n q Hq ltac:(rewrite EQ; reflexivity)) as (T1 & T2). rewrite <- Es, <- Ec, <- T1, <- T2.
      etransitivity; [|exact H]. unfold mixture. cbn [Nat.add seq map app List.length]. rewrite !rsum_head. cbn [nth rsum pow]. unfold ex_quarter. replace (2 * PI * (IZR m / 4) / 2) with (2 * PI * (IZR m / 8)) by field. ring. }
    pose proof (EV 4%Z 0%Z (1 / 2) _ _ ltac:(cbn; tauto) ltac:(lia) ltac:(lra) q2 q2') as E4. pose proof (EV 6%Z 0%Z (3 / 4) _ _ ltac:(cbn; tauto) ltac:(lia) ltac:(lra) q3 q3') as E6.
    pose proof (EV 8%Z 1%Z 0 _ _ ltac:(cbn; tauto) ltac:(lia) ltac:(lra) q0 q0') as E8. pose proof (EV 10%Z 1%Z (1 / 4) _ _ ltac:(cbn; tauto) ltac:(lia) ltac:(lra) q1 q1') as E10. pose proof (EV 12%Z 1%Z (1 / 2) _ _ ltac:(cbn; tauto) ltac:(lia) ltac:(lra) q2 q2') as E12.
    assert (B1 : b 1%nat = 0) by lra. rewrite B1 in *. intros k Hk. cbn in Hk. destruct k as [|[|[|[|k]]]]; try lia; lra.
Qed.
Print Assumptions C112_example.
