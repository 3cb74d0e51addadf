(** C141: what the logs of the scripts have, and where. *)
From Coq Require Import List Bool String Arith Lia Permutation Sorting.Sorted.
From Verif Require Import Base LogModel.
Import ListNotations.
Close Scope Z_scope.
Open Scope string_scope.
Open Scope nat_scope.

(** ** Specification: the messages that are shown at a level, in order *)
Fixpoint shown (lvl : nat) (l : list (nat * string)) : list string :=
  match l with [] => [] | (n, m) :: r => if lvl <=? n then m :: shown lvl r else shown lvl r end.
(** the level for the number of times -V is given *)
Inductive threshold : nat -> nat -> Prop := Quiet : threshold 0 50 | Normal : threshold 1 20 | Verbose : threshold 2 10.
Definition key_le (a b : string * string) : Prop := String.leb (fst a) (fst b) = true.

Lemma thr v l : threshold v l <-> nth_error loglevels v = Some l.
Proof. split; [intros []; reflexivity|]. destruct v as [|[|[|v]]]; cbn; intros E; try (injection E as <-; constructor). destruct v; discriminate E. Qed.
Lemma logs_term l : forall lvl t f, logs (mkst (Some (Terminal, lvl)) t f) l = mkst (Some (Terminal, lvl)) (t ++ shown lvl l)%list f.
Proof.
  unfold logs. induction l as [|[n m] l IH]; intros lvl t f; [cbn; rewrite app_nil_r; reflexivity|]. cbn [fold_left fst snd shown]. unfold log, basicConfig. cbn [root].
  destruct (lvl <=? n); [unfold emit; cbn [root term file]; rewrite IH, <- app_assoc; reflexivity|apply IH].
Qed.
Lemma logs_text l : forall lvl t f, logs (mkst (Some (TextFile, lvl)) t (Some f)) l = mkst (Some (TextFile, lvl)) t (Some (f ++ shown lvl l)%list).
Proof.
  unfold logs. induction l as [|[n m] l IH]; intros lvl t f; [cbn; rewrite app_nil_r; reflexivity|]. cbn [fold_left fst snd shown]. unfold log, basicConfig. cbn [root].
  destruct (lvl <=? n); [unfold emit; cbn [root term file option_map]; rewrite IH, <- app_assoc; reflexivity|apply IH].
Qed.
Lemma shown_info lvl l : shown lvl (map (pair INFO) l) = if lvl <=? 20 then l else [].
Proof. unfold INFO. induction l as [|m l IH]; [destruct (lvl <=? 20); reflexivity|]. cbn [map shown]. rewrite IH. destruct (lvl <=? 20); reflexivity. Qed.
Lemma main_ok iterations v lvl ul args inf ms e : threshold v lvl -> main iterations v ul args inf ms e =
  let s := mkst (Some (Terminal, lvl)) ((if lvl <=? 20 then inf else []) ++ shown lvl ms)%list None in
  match e with
  | Raised tb => let s := log (log s CRITICAL "process failed") ERROR tb in if ul then output_error_log_file s args tb else (s, Ok tt)
  | Done outputs => if ul then output_log_file iterations s args outputs else (s, Ok tt)
  end.
Proof.
  intros T. apply thr in T. unfold main. rewrite T. unfold basicConfig, start. cbn [root term file]. unfold infos. rewrite logs_term, shown_info, logs_term. reflexivity.
Qed.

(** the arguments are listed once each, sorted by name *)
Theorem C141_sorted : forall args, Permutation (sorted args) args /\ Sorted key_le (sorted args).
Proof.
  assert (H0 : forall a x l, HdRel key_le a l -> key_le a x -> HdRel key_le a (insert x l)).
  { intros a x [|y l] H K; [constructor; exact K|]. cbn. destruct (String.leb (fst x) (fst y)); constructor; [exact K|inversion H; assumption]. }
  induction args as [|x args [P S]]; [split; constructor|]. cbn [sorted fold_right]. change (fold_right insert [] args) with (sorted args). set (l := sorted args) in *. clearbody l. split.
  - transitivity (x :: l); [|constructor; exact P]. clear. induction l as [|y l IH]; [reflexivity|]. cbn. destruct (String.leb (fst x) (fst y)); [reflexivity|]. rewrite IH. apply perm_swap.
  - clear P args. induction S as [|y l S IH H]; [repeat constructor|]. cbn. destruct (String.leb (fst x) (fst y)) eqn:E; [constructor; [constructor; assumption|constructor; exact E]|].
    constructor; [exact IH|]. apply H0; [exact H|]. unfold key_le. destruct (String.leb_total (fst x) (fst y)) as [K|K]; [congruence|exact K].
Qed.
Print Assumptions C141_sorted.
(** a run that ends without log: nothing is printed but the messages of the level asked for, and a run that fails still ends normally, with its traceback shown only when -V is given *)
Theorem C141_no_log : forall iterations v lvl args inf ms e, threshold v lvl ->
  main iterations v false args inf ms e =
    (mkst (Some (Terminal, lvl)) ((if lvl <=? 20 then inf else []) ++ shown lvl ms ++ match e with Done _ => [] | Raised tb => shown lvl [(50, "process failed"); (40, tb)] end)%list None, Ok tt).
Proof.
  intros it v lvl args inf ms e T. rewrite (main_ok _ v lvl _ _ _ _ _ T). cbn zeta. destruct e as [o|tb]; [rewrite app_nil_r; reflexivity|].
  change (log (log ?s CRITICAL ?a) ERROR tb) with (logs s [(50, a); (40, tb)]). rewrite logs_term, <- app_assoc. reflexivity.
Qed.
Print Assumptions C141_no_log.
(** with -V and --log the terminal has the information, the messages, the sorted arguments and the outputs of a run that ends well *)
Theorem C141_terminal : forall v lvl args inf ms outputs, threshold v lvl -> v <> 0 ->
  let r := main false v true args inf ms (Done outputs) in
  term (fst r) = (inf ++ shown lvl ms ++ "ARGUMENTS:" :: map (fun a => (fst a ++ ": " ++ snd a)%string) (sorted args) ++ "OUTPUT FILES:" :: outputs)%list /\ snd r = Ok tt.
Proof.
  intros v lvl args inf ms outputs T N. cbn zeta. rewrite (main_ok _ v lvl _ _ _ _ _ T). cbn zeta. unfold output_log_file, basicConfig. cbn [root term file]. unfold infos. rewrite !logs_term, !shown_info.
  assert (L : (lvl <=? 20) = true) by (destruct T; [contradiction|reflexivity|reflexivity]). rewrite L. cbn [fst snd term]. split; [|reflexivity]. unfold args_lines. rewrite <- !app_assoc. cbn [app]. reflexivity.
Qed.
Print Assumptions C141_terminal.
(** the synchronization scripts append every message from INFO on to their log file and print nothing; without a log file they print it *)
Theorem C141_sync : forall before ms, let l := shown 20 ms in
  term (sync true before ms) = [] /\ file (sync true before ms) = Some (before ++ l)%list /\ term (sync false before ms) = l /\ file (sync false before ms) = None.
Proof. intros before ms. cbn zeta. unfold sync, basicConfig, start. cbn [root term file]. rewrite logs_text, logs_term. repeat split. Qed.
Print Assumptions C141_sync.

(** ** Claims that do not hold *)
Lemma file_logs : forall l s, (forall lvl, root s <> Some (TextFile, lvl)) -> file (logs s l) = file s /\ (forall lvl, root (logs s l) <> Some (TextFile, lvl)).
Proof.
  induction l as [|[n m] l IH]; intros s H; [split; [reflexivity|exact H]|]. cbn [logs fold_left fst snd]. change (fold_left _ l ?x) with (logs x l).
  assert (K : file (log s n m) = file s /\ forall lvl, root (log s n m) <> Some (TextFile, lvl)).
  { destruct s as [[[d lv]|] t f]; unfold log, basicConfig; cbn [root term file].
    - destruct (lv <=? n); [|split; [reflexivity|exact H]]. destruct d; [|destruct (H lv eq_refl)|]; cbn; split; try reflexivity; intros q E; discriminate E.
    - destruct (WARNING <=? n); cbn; split; try reflexivity; intros q E; discriminate E. }
  destruct K as [K1 K2]. destruct (IH (log s n m) K2) as [A B]. split; [rewrite A; exact K1|exact B].
Qed.
Lemma new_log_root s : (forall lvl, root s <> Some (TextFile, lvl)) -> forall lvl, root (basicConfig (mkst (root s) (term s) (Some [])) BinaryFile INFO) <> Some (TextFile, lvl).
Proof. intros H lvl. unfold basicConfig. cbn [root]. destruct (root s) eqn:E; cbn [root]; [apply H|discriminate]. Qed.
(** the log file of a run is always empty: of a run that ends well and of a run that fails, for every number of -V *)
Theorem C141_log_empty_refuted : forall iterations v lvl args inf ms e, threshold v lvl -> file (fst (main iterations v true args inf ms e)) = Some [].
Proof.
  intros it v lvl args inf ms e T. rewrite (main_ok _ v lvl _ _ _ _ _ T). cbn zeta. destruct e as [o|tb].
  - unfold output_log_file, basicConfig. cbn [root term file]. unfold infos. rewrite logs_term. destruct it; [reflexivity|]. rewrite logs_term. reflexivity.
  - change (log (log ?s CRITICAL ?a) ERROR tb) with (logs s [(50, a); (40, tb)]). rewrite logs_term. unfold output_error_log_file, basicConfig. cbn [root term file]. unfold infos. rewrite !logs_term. reflexivity.
Qed.
Print Assumptions C141_log_empty_refuted.
(** it would stay empty without the earlier configuration of the loggers too, since the file is binary *)
Theorem C141_binary_refuted : forall iterations s args outputs tb, (forall lvl, root s <> Some (TextFile, lvl)) ->
  file (fst (output_log_file iterations s args outputs)) = Some [] /\ file (fst (output_error_log_file s args tb)) = Some [].
Proof.
  intros it s args outputs tb H. pose proof (new_log_root s H) as R. unfold output_log_file, output_error_log_file, infos, print_exc. cbn zeta. set (s0 := basicConfig _ _ _) in *.
  assert (F0 : file s0 = Some []) by (unfold s0, basicConfig; cbn [root]; destruct (root s); reflexivity). clearbody s0.
  destruct (file_logs (map (pair INFO) (args_lines args)) s0 R) as [A B]. set (s1 := logs s0 _) in *. clearbody s1. split.
  - destruct it; cbn [fst]; [congruence|]. rewrite (proj1 (file_logs _ s1 B)). congruence.
  - cbn [fst]. rewrite (proj1 (file_logs _ s1 B)). congruence.
Qed.
Print Assumptions C141_binary_refuted.
(** a run that fails with --log ends with another exception, TypeError, out of the script *)
Theorem C141_error_log_refuted : forall iterations v lvl args inf ms tb, threshold v lvl -> snd (main iterations v true args inf ms (Raised tb)) = Err TypeError.
Proof. intros it v lvl args inf ms tb T. rewrite (main_ok _ v lvl _ _ _ _ _ T). reflexivity. Qed.
Print Assumptions C141_error_log_refuted.
(** the degree one scripts end with AttributeError after a run with --log that ends well, and the outputs are not listed *)
Theorem C141_iterations_refuted : forall v lvl args inf ms outputs, threshold v lvl -> snd (main true v true args inf ms (Done outputs)) = Err AttributeError /\
  term (fst (main true v true args inf ms (Done outputs))) = ((if lvl <=? 20 then inf else []) ++ shown lvl ms ++ (if lvl <=? 20 then "ARGUMENTS:" :: map (fun a => (fst a ++ ": " ++ snd a)%string) (sorted args) else []))%list.
Proof.
  intros v lvl args inf ms outputs T. rewrite (main_ok _ v lvl _ _ _ _ _ T). cbn zeta. unfold output_log_file, basicConfig. cbn [root term file fst snd]. split; [reflexivity|]. unfold infos. rewrite logs_term, shown_info. cbn [term]. rewrite <- app_assoc. reflexivity.
Qed.
Print Assumptions C141_iterations_refuted.
(** more than two -V are an IndexError *)
Theorem C141_verbosity : forall iterations v ul args inf ms e, (exists lvl, threshold v lvl) <-> snd (main iterations v ul args inf ms e) <> Err IndexError.
Proof.
  intros it v ul args inf ms e. split.
  - intros (lvl & T). rewrite (main_ok _ v lvl _ _ _ _ _ T). cbn zeta. destruct e as [o|tb], ul; try discriminate. cbn. destruct it; discriminate.
  - unfold main. destruct (nth_error loglevels v) as [l|] eqn:E; [intros _; exists l; apply thr; exact E|intros H; destruct (H eq_refl)].
Qed.
Print Assumptions C141_verbosity.

(** ** Example *)
Example C141_example : threshold 1 20 /\ term (fst (main false 1 true [("start", "4"); ("lmax", "60")] ["calc_mascon.py"] [(10, "quiet"); (20, "file 1")] (Done ["out.txt"]))) =
  ["calc_mascon.py"; "file 1"; "ARGUMENTS:"; "lmax: 60"; "start: 4"; "OUTPUT FILES:"; "out.txt"] /\ file (fst (main false 1 true [("start", "4")] [] [] (Done ["out.txt"]))) = Some [] /\
  sync true ["old"] [(20, "CNES Sync Log"); (10, "detail"); (30, "warning")] = mkst (Some (TextFile, 20)) [] (Some ["old"; "CNES Sync Log"; "warning"]).
Proof. split; [constructor|]. repeat split. Qed.
