(** Model of scripts/quick_mascon_regress.py: summary files of a fit to one mascon time series.
    A row of the input file is (month, time, value); reading the text is not modelled, nor are the widths and digits of the printed numbers, the units and the headings.  The labels 'x{o}' are [Poly o]. *)
From Coq Require Import Reals String List.
From Verif Require Import Base LinAlg RegressModel TsModel TrendMapModel.
Close Scope Z_scope.
Open Scope R_scope.

Inductive label := Poly (o : nat) | Bent | Named (s : string).
(** a line of the summary: estimate, standard error, 95% confidence *)
Inductive text := Formula (ls : list label) | Coef (l : label) (est se conf : R) | Ampl (flag : string) (est se conf : R) | Phase (flag : string) (est se conf : R) | Dof (n : Z) | Stat (name : string) (x : R).
Definition row : Type := Z * R * R.
Definition row_month (x : row) : Z := fst (fst x).
Definition row_time (x : row) : R := snd (fst x).
Definition row_value (x : row) : R := snd x.
(** the parts of the dictionary of the fit that are printed *)
Record fitted := mkfitted { q_beta : list R; q_std : list R; q_err : list R; q_dof : Z; q_stats : list (string * R) }.
Definition opt_list (o : option (list R)) : list R := match o with Some l => l | None => [] end.
Definition opt_num (o : option R) : R := match o with Some x => x | None => 0 end.
(** 213: order of the criteria *)
Definition stats_of (f : lsfit) (m nrmse : R) : list (string * R) :=
  [("AIC", f_AIC f); ("BIC", f_BIC f); ("LOGLIK", f_loglik f); ("MSE", m); ("NRMSE", nrmse); ("R2", f_R2 f); ("R2Adj", f_R2Adj f)]%string.
(** what one run leaves: the summary file, the standard output, and how the call ends *)
Record run_result := mkrun { r_file : option (list text); r_out : list text; r_res : res unit }.

Section Program.
(** scipy.special.erf and scipy.stats.t.ppf *)
Context (erf : R -> R) (tppf : R -> Z -> R).

(** 77-93: labels of the first coefficients *)
Definition first_labels (order : option nat) (breakpoint : option Z) : list label :=
  match breakpoint, order with
  | Some _, _ => [Poly 0; Bent; Bent]
  | None, Some o => map Poly (seq 0 (o + 1))
  | None, None => []
  end.
(** 149-156 with the keyword defaults of regress and piecewise; 79: np.nonzero of the breakpoint, which makes piecewise raise TypeError unless it is one row *)
Definition fit_rows (rows : list row) (order : option nat) (breakpoint : option Z) (cycles : list R) : res fitted :=
  let t := map row_time rows in let d := map row_value rows in
  match breakpoint, order with
  | Some b, _ =>
    match month_index (map row_month rows) b with
    | [k] =>
      do q <- piecewise erf tppf t d (Some (Z.of_nat k)) None (filter stays cycles) (flat_map (terms_of t) cycles) (Scalar 0) false 0 (95 / 100) false;
      Ok (mkfitted (p_beta q) (opt_list (p_std_err q)) (p_error q) (f_dof (p_fit q)) (stats_of (p_fit q) (p_mse q) (opt_num (p_nrmse q))))
    | _ => Err TypeError
    end
  | None, Some o =>
    do q <- regress erf tppf t d o (filter stays cycles) (flat_map (terms_of t) cycles) (Scalar 0) false RelAll 0 (95 / 100) false;
    Ok (mkfitted (f_beta (r_fit q)) (opt_list (r_std_err q)) (r_error q) (f_dof (r_fit q)) (stats_of (r_fit q) (r_mse q) (opt_num (r_nrmse q))))
  | None, None => Err ValueError
  end.
(** 169-171: the coefficients; a coefficient without a label ends the run, after the lines before it *)
Definition coef_lines (labels : list label) (q : fitted) : list text * res unit :=
  (map (fun k => Coef (nth k labels Bent) (at_ (q_beta q) k) (at_ (q_std q) k) (at_ (q_err q) k)) (seq 0 (Nat.min (List.length labels) (List.length (q_beta q)))),
   if (List.length (q_beta q) <=? List.length labels)%nat then Ok tt else Err IndexError).
(** 178-197: amplitude and phase (0 to 360 degrees) with errors.  Where the amplitude is 0 numpy gives NaN errors; the model has Coq's value there *)
Definition amp_of (base i : nat) (q : fitted) : R := fst (amplitude (at_ (q_beta q) (base + 2 * i)) (at_ (q_beta q) (base + 2 * i + 1))).
Definition ph_of (base i : nat) (q : fitted) : R :=
  let p := snd (amplitude (at_ (q_beta q) (base + 2 * i)) (at_ (q_beta q) (base + 2 * i + 1))) in if Rlt_dec p 0 then p + 360 else p.
Definition amp_err (base i : nat) (q : fitted) (e : list R) : R :=
  let j := (base + 2 * i)%nat in
  let comp1 := at_ e j * at_ (q_beta q) j / amp_of base i q in let comp2 := at_ e (j + 1) * at_ (q_beta q) (j + 1) / amp_of base i q in sqrt (comp1 ^ 2 + comp2 ^ 2).
Definition ph_err (base i : nat) (q : fitted) (e : list R) : R :=
  let j := (base + 2 * i)%nat in
  let comp1 := at_ e j * at_ (q_beta q) (j + 1) / amp_of base i q ^ 2 in let comp2 := at_ e (j + 1) * at_ (q_beta q) j / amp_of base i q ^ 2 in 180 / PI * sqrt (comp1 ^ 2 + comp2 ^ 2).
(** 199-217: the rest of the summary; here every coefficient has a label, so that the arrays of 174-176 have one entry for every amplitude label *)
Definition wave_lines (base : nat) (amps : list string) (q : fitted) : list text :=
  (map (fun i => Ampl (nth i amps EmptyString) (amp_of base i q) (amp_err base i q (q_std q)) (amp_err base i q (q_err q))) (seq 0 (List.length amps)) ++
   map (fun i => Phase (nth i amps EmptyString) (ph_of base i q) (ph_err base i q (q_std q)) (ph_err base i q (q_err q))) (seq 0 (List.length amps)))%list.
Definition criteria (q : fitted) : list text := Dof (q_dof q) :: map (fun nx => Stat (fst nx) (snd nx)) (q_stats q).
(** 158-217: everything that is printed *)
Definition summary (order : option nat) (breakpoint : option Z) (cycles : list R) (q : fitted) : list text * res unit :=
  let first := first_labels order breakpoint in
  let labels := (first ++ map Named (flat_map labels_of cycles))%list in
  let (cl, r) := coef_lines labels q in
  match r with
  | Err e => (Formula labels :: cl, Err e)
  | Ok _ => ((Formula labels :: cl ++ wave_lines (List.length first) (flat_map amps_of cycles) q ++ criteria q)%list, Ok tt)
  end.
(** 44-217.  [old]: the summary file before the run; it is opened (95-103) before the fit.  With fewer than two rows np.loadtxt gives a one-dimensional array and dinput[:,0] (79)
    or dinput[:,1] (133, 155) raises IndexError *)
Definition run_regress (old : option (list text)) (rows : list row) (order : option nat) (breakpoint : option Z) (cycles : list R) (stream : bool) : run_result :=
  match breakpoint, order with
  | None, None => mkrun old [] (Err ValueError)
  | _, _ =>
    let bad := (List.length rows <? 2)%nat in
    if bad && (match breakpoint with Some _ => true | None => false end) then mkrun old [] (Err IndexError) else
    let opened := if stream then old else Some [] in
    if bad then mkrun opened [] (Err IndexError) else
    match fit_rows rows order breakpoint cycles with
    | Err e => mkrun opened [] (Err e)
    | Ok q => let (ls, r) := summary order breakpoint cycles q in if stream then mkrun old ls r else mkrun (Some ls) [] r
    end
  end.
(** 254-264: all input files, one after the other; the name of a summary is the stem of the input file (85, 91: the suffix is the same for all files of a run) *)
Record input := mkinput { i_stem : string; i_ext : string; i_rows : list row }.
Fixpoint main (files : list input) (order : option nat) (breakpoint : option Z) (cycles : list R) (stream : bool) (store : string -> option (list text)) : (string -> option (list text)) * list text * res unit :=
  match files with
  | [] => (store, [], Ok tt)
  | f :: rest =>
    let r := run_regress (store (i_stem f)) (i_rows f) order breakpoint cycles stream in
    let store' := fun s => if String.eqb s (i_stem f) then r_file r else store s in
    match r_res r with
    | Err e => (store', r_out r, Err e)
    | Ok _ => let '(st, out, res) := main rest order breakpoint cycles stream store' in (st, r_out r ++ out, res)%list
    end
  end.
End Program.
