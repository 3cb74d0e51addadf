(** Model of the logs of the scripts: main, info, output_log_file and output_error_log_file of calc_mascon.py (265-271, 723-759, 980-1045), which calc_sensitivity_kernel, dealiasing_global_uplift, grace_mean_harmonics,
    grace_raster_grids, grace_spatial_error, grace_spatial_maps, piecewise_grace_maps, regress_grace_maps and scale_grace_maps repeat, calc_degree_one.py (1349-1390) and monte_carlo_degree_one.py (1147-1187), which
    also print the number of iterations; the log files of the synchronization scripts (itsg_graz_grace_sync.py 70-82, cnes_grace_sync.py 172-182); the part of the logging module of Python that they use:
    basicConfig does nothing when the root logger has a handler; logging.info and the like call basicConfig() when it has none; a handler that fails writes the error to the terminal and goes on.
    create_unique_file opens the new file in mode 'xb' (utilities.py 400, UtilModel.v), so a text cannot be written to it: this is a TypeError.  The name of the file and its counter are in UtilModel.v (C60);
    here only what is in the new file is represented.  Lines are texts; blank lines in front of the headings are not represented. *)
From Coq Require Import List Bool String Arith.
From Verif Require Import Base.
Import ListNotations.
Close Scope Z_scope.
Open Scope string_scope.
Open Scope nat_scope.

Definition INFO := 20. Definition DEBUG := 10. Definition WARNING := 30. Definition ERROR := 40. Definition CRITICAL := 50.
Inductive dest := Terminal | TextFile | BinaryFile.
(** the handler of the root logger and its level, what is on the terminal and what is in the log file, if there is one *)
Record st := mkst { root : option (dest * nat); term : list string; file : option (list string) }.
Definition basicConfig (s : st) (d : dest) (lvl : nat) : st := match root s with Some _ => s | None => mkst (Some (d, lvl)) (term s) (file s) end.
Definition emit (s : st) (d : dest) (msg : string) : st :=
  match d with
  | Terminal => mkst (root s) (term s ++ [msg])%list (file s)
  | TextFile => mkst (root s) (term s) (option_map (fun f => (f ++ [msg])%list) (file s))
  | BinaryFile => mkst (root s) (term s ++ ["--- Logging error ---"])%list (file s)
  end.
Definition log (s : st) (lvl : nat) (msg : string) : st :=
  let s := basicConfig s Terminal WARNING in
  match root s with Some (d, l) => if l <=? lvl then emit s d msg else s | None => s end.
Definition logs (s : st) (l : list (nat * string)) : st := fold_left (fun s m => log s (fst m) (snd m)) l s.
Definition infos (s : st) (l : list string) : st := logs s (map (pair INFO) l).
(** sorted(vars(input_arguments).items()) *)
Fixpoint insert (x : string * string) (l : list (string * string)) : list (string * string) :=
  match l with [] => [x] | y :: r => if String.leb (fst x) (fst y) then x :: l else y :: insert x r end.
Definition sorted (l : list (string * string)) : list (string * string) := fold_right insert [] l.
Definition arg_line (x : string * string) : string := fst x ++ ": " ++ snd x.
Definition args_lines (args : list (string * string)) : list string := "ARGUMENTS:" :: map arg_line (sorted args).
(** 723-740; iterations = true: calc_degree_one.py 1362, monte_carlo_degree_one.py 1160, where arguments is the function that makes the parser *)
Definition output_log_file (iterations : bool) (s : st) (args : list (string * string)) (outputs : list string) : st * res unit :=
  let s := basicConfig (mkst (root s) (term s) (Some [])) BinaryFile INFO in
  let s := infos s (args_lines args) in
  if iterations then (s, Err AttributeError) else (infos s ("OUTPUT FILES:" :: outputs), Ok tt).
(** 743-759; print_exc writes to the file itself *)
Definition print_exc (s : st) (opened : dest) (tb : string) : st * res unit :=
  match opened with BinaryFile => (s, Err TypeError) | d => (emit s d tb, Ok tt) end.
Definition output_error_log_file (s : st) (args : list (string * string)) (tb : string) : st * res unit :=
  let s := basicConfig (mkst (root s) (term s) (Some [])) BinaryFile INFO in
  let s := infos s (args_lines args) in
  print_exc (infos s ["TRACEBACK ERROR:"]) BinaryFile tb.
(** 980-1045: the analysis logs some messages, and either gives its files or raises with a traceback *)
Definition loglevels := [CRITICAL; INFO; DEBUG].
Inductive ending := Done (outputs : list string) | Raised (traceback : string).
Definition start := mkst None [] None.
Definition main (iterations : bool) (verbose : nat) (uselog : bool) (args : list (string * string)) (information : list string) (messages : list (nat * string)) (e : ending) : st * res unit :=
  match nth_error loglevels verbose with
  | None => (start, Err IndexError)
  | Some lvl =>
      let s := basicConfig start Terminal lvl in
      let s := logs (infos s information) messages in
      match e with
      | Raised tb =>
          let s := log (log s CRITICAL "process failed") ERROR tb in
          if uselog then output_error_log_file s args tb else (s, Ok tt)
      | Done outputs => if uselog then output_log_file iterations s args outputs else (s, Ok tt)
      end
  end.
(** the synchronization scripts: a text file, or the terminal; the first configuration of the process *)
Definition sync (uselog : bool) (before : list string) (messages : list (nat * string)) : st :=
  logs (if uselog then basicConfig (mkst None [] (Some before)) TextFile INFO else basicConfig start Terminal INFO) messages.
