(** Model of scripts/regress_grace_maps.py and scripts/piecewise_grace_maps.py: monthly maps are read, a model of the time series is fitted in every grid cell and
    every coefficient is written to a map of its own.
    Reading a monthly map is a function from months to spatial objects ([maps]); np.argsort of the times is an input ([order], as in SpatialModel.sfrom_list).  Of a file name only the
    parts that differ within a run are kept: the label and the two months.  Titles, units, attributes and log files are not modelled. *)
From Coq Require Import Reals String List.
From Verif Require Import Base LinAlg RegressModel TsModel.
From Verif Require SpatialModel Arr HarmModel.
Import SpatialModel(sp, sdata, smask, serr, slon, slat, stime, smonth, sfill, mksp, sfrom_list).
Import Arr(rows, cols, get). Import HarmModel(TArr, TScalar).
Close Scope Z_scope.
Open Scope R_scope.

(** regress_grace_maps.py 232-241, piecewise_grace_maps.py 234-243: aliasing periods in days *)
Definition tidal_aliasing : list (string * R) :=
  [("Q1", 91 / 10); ("O1", 136 / 10); ("P1", 1712 / 10); ("S1", 3221 / 10); ("K1", 27254 / 10); ("J1", 278 / 10); ("M2", 135 / 10); ("S2", 161); ("K2", 13627 / 10)]%string.
(** np.isclose with the default tolerances *)
Definition isclose (a b : R) : bool := if Rle_dec (Rabs (a - b)) (/ 10 ^ 8 + / 10 ^ 5 * Rabs b) then true else false.
Definition is_half (c : R) : bool := if Req_EM_T c (1 / 2) then true else false.
Definition is_one (c : R) : bool := if Req_EM_T c 1 then true else false.
Definition tides_of (c : R) : list (string * R) := filter (fun np => isclose c (snd np / (36525 / 100))) tidal_aliasing.

(** 245-286 of regress_grace_maps.py, one entry of CYCLES: labels of the coefficients, labels of the amplitudes, extra columns, and whether the entry stays in CYCLES *)
Definition labels_of (c : R) : list string :=
  ((if is_half c then ["SS"; "SC"] else if is_one c then ["AS"; "AC"] else [])%string ++
   flat_map (fun np => let n := fst np in [n ++ "SGRC"; n ++ "CGRC"; n ++ "SGFO"; n ++ "CGFO"]%string) (tides_of c))%list.
Definition amps_of (c : R) : list string :=
  ((if is_half c then ["SEMI"] else if is_one c then ["ANN"] else [])%string ++
   flat_map (fun np => let n := fst np in [n ++ "GRC"; n ++ "GFO"]%string) (tides_of c))%list.
Definition terms_of (t : list R) (c : R) : list (list R) := flat_map (fun np => aliasing_terms t (snd np)) (tides_of c).
Definition stays (c : R) : bool := match tides_of c with [] => true | _ => false end.

(** what one cell yields: coefficients, errors, and SSE, AIC, BIC, R2Adj *)
Record cell := mkcell { c_beta : list R; c_error : list R; c_stats : list R }.
Definition no_cell : cell := mkcell [] [] [].
(** an output map; the masks are those of zeros_like or set to False cell by cell (regress_grace_maps.py 298, 318) *)
Record omap := mkomap { o_name : string; o_first : Z; o_last : Z; o_data : nat -> nat -> R; o_error : option (nat -> nat -> R); o_mask : nat -> nat -> bool }.
Definition unmasked (i j : nat) : bool := false.

(** regress_grace_maps.py 169: sorted(set(np.arange(START,END+1)) - set(MISSING)) *)
Definition months_of (START END : Z) (MISSING : list Z) : list Z :=
  filter (fun m => negb (existsb (Z.eqb m) MISSING)) (map (fun k => START + Z.of_nat k)%Z (seq 0 (Z.to_nat (END + 1 - START)))).
(** 191-213: the maps of the months, with the month of the loop, in one object *)
Definition with_month (o : sp) (m : Z) : sp := mksp (sdata o) (smask o) (serr o) (slon o) (slat o) (stime o) (TScalar m) (sfill o).
Definition read_maps (maps : Z -> res sp) (order : list nat) (months : list Z) : res sp :=
  do objs <- mapM (fun m => do o <- maps m; Ok (with_month o m)) months; sfrom_list order objs.
Definition times (g : sp) : list R := match stime g with TArr ts => ts | TScalar x => [x] | HarmModel.TNone => [] end.
Definition grid_months (g : sp) : list Z := match smonth g with TArr ms => ms | TScalar m => [m] | HarmModel.TNone => [] end.
(** grid.data[i,j,:]; a NaN makes np.linalg.lstsq raise LinAlgError *)
Definition series (g : sp) (i j : nat) : res (list R) :=
  mapM (fun k => match get (sdata g) i j k with Some x => Ok x | None => Err OtherExn end) (seq 0 (List.length (times g))).
(** 309-326: all cells; the first exception ends the program *)
Definition all_cells (g : sp) (fit : list R -> res cell) : res (list (list cell)) :=
  mapM (fun i => mapM (fun j => do d <- series g i j; fit d) (seq 0 (cols (sdata g)))) (seq 0 (rows (sdata g))).
Definition at_cell (cs : list (list cell)) (i j : nat) : cell := nth j (nth i cs []) no_cell.

(** 331-346: a map per coefficient label *)
Definition coef_maps (labels : list string) (first last : nat -> Z) (cs : list (list cell)) : list omap :=
  map (fun k => mkomap (nth k labels EmptyString) (first k) (last k) (fun i j => at_ (c_beta (at_cell cs i j)) k) (Some (fun i j => at_ (c_error (at_cell cs i j)) k)) unmasked)
    (seq 0 (List.length labels)).
(** 350-394: amplitude and phase (0 to 360 degrees) with errors.  Where the amplitude is 0 numpy writes NaN errors; the model has Coq's value there *)
Definition amp_maps (base : nat) (suffix : string) (START END : Z) (amps : list string) (cs : list (list cell)) : list omap :=
  flat_map (fun n => let j0 := (base + 2 * n)%nat in
    let s i j := at_ (c_beta (at_cell cs i j)) j0 in let c i j := at_ (c_beta (at_cell cs i j)) (j0 + 1) in
    let es i j := at_ (c_error (at_cell cs i j)) j0 in let ec i j := at_ (c_error (at_cell cs i j)) (j0 + 1) in
    let amp i j := fst (amplitude (s i j) (c i j)) in
    let ph i j := let p := snd (amplitude (s i j) (c i j)) in if Rlt_dec p 0 then p + 360 else p in
    [mkomap (nth n amps EmptyString ++ suffix)%string START END amp
       (Some (fun i j => let comp1 := es i j * s i j / amp i j in let comp2 := ec i j * c i j / amp i j in sqrt (comp1 ^ 2 + comp2 ^ 2))) unmasked;
     mkomap (nth n amps EmptyString ++ "_PHASE")%string START END ph
       (Some (fun i j => let comp1 := es i j * c i j / amp i j ^ 2 in let comp2 := ec i j * s i j / amp i j ^ 2 in 180 / PI * sqrt (comp1 ^ 2 + comp2 ^ 2))) unmasked])
    (seq 0 (List.length amps)).
(** 403-416: fit statistics; the maps have no errors (zeros if the monthly maps have errors: not modelled) *)
Definition stat_maps (label : string) (START END : Z) (cs : list (list cell)) : list omap :=
  map (fun kn => mkomap (snd kn ++ "_" ++ label)%string START END (fun i j => at_ (c_stats (at_cell cs i j)) (fst kn)) None unmasked)
    [(0%nat, "SSE"); (1%nat, "AIC"); (2%nat, "BIC"); (3%nat, "R2Adj")]%string.

Section Programs.
(** scipy.special.erf and scipy.stats.t.ppf *)
Context (erf : R -> R) (tppf : R -> Z -> R).

(** regress_grace_maps.py 217-224: labels of the polynomial; fit_longname has no value for higher orders, which raises in 252 or 339, before any file is written (a fit that raises in 312
    raises another exception; not modelled) *)
Definition poly_labels (ORDER : nat) : list string := map (fun o => nth o ["x0"; "x1"; "x2"]%string EmptyString) (seq 0 (ORDER + 1)).
(** 312-326 *)
Definition regress_cell (t : list R) (ORDER : nat) (CYCLES : list R) (d : list R) : res cell :=
  do q <- regress erf tppf t d ORDER (filter stays CYCLES) (flat_map (terms_of t) CYCLES) (Scalar 0) false RelAll 0 (95 / 100) true;
  Ok (mkcell (f_beta (r_fit q)) (r_error q) [r_mse q * IZR (f_dof (r_fit q)); f_AIC (r_fit q); f_BIC (r_fit q); f_R2Adj (r_fit q)]).
(** regress_grace_maps.py 120-419 *)
Definition regress_grace_maps (maps : Z -> res sp) (order : list nat) (START END : Z) (MISSING : list Z) (ORDER : nat) (CYCLES : list R) : res (list omap) :=
  do g <- read_maps maps order (months_of START END MISSING);
  if (2 <? ORDER)%nat then Err UnboundLocalError else
  let labels := (poly_labels ORDER ++ flat_map labels_of CYCLES)%list in
  do cs <- all_cells g (regress_cell (times g) ORDER CYCLES);
  Ok (coef_maps labels (fun _ => START) (fun _ => END) cs ++ amp_maps (1 + ORDER) "_AMPL" START END (flat_map amps_of CYCLES) cs ++ stat_maps (nth ORDER labels EmptyString) START END cs)%list.

(** np.nonzero(grid.month == BREAKPOINT) *)
Definition month_index (ms : list Z) (m : Z) : list nat := filter (fun k => (nth k ms 0%Z =? m)%Z) (seq 0 (List.length ms)).
(** piecewise_grace_maps.py 319-333; one index, as the months of the maps are distinct (else the fit raises) *)
Definition piecewise_cell (t : list R) (index : list nat) (CYCLES : list R) (d : list R) : res cell :=
  match index with
  | [k] =>
    do q <- piecewise erf tppf t d (Some (Z.of_nat k)) None (filter stays CYCLES) (flat_map (terms_of t) CYCLES) (Scalar 0) false 0 (95 / 100) false;
    Ok (mkcell (p_beta q) (p_error q) [p_mse q * IZR (f_dof (p_fit q)); f_AIC (p_fit q); f_BIC (p_fit q); f_R2Adj (p_fit q)])
  | _ => Err TypeError
  end.
(** piecewise_grace_maps.py 121-429: 216-224 breakpoint and labels, 291-297 months in the file names, 341 and 382 file names *)
Definition piecewise_grace_maps (maps : Z -> res sp) (order : list nat) (START END BREAKPOINT : Z) (MISSING : list Z) (CYCLES : list R) : res (list omap) :=
  do g <- read_maps maps order (months_of START END MISSING);
  if negb (existsb (Z.eqb BREAKPOINT) (grid_months g)) then Err ValueError else
  let labels := (["x0"; "px1"; "px1"]%string ++ flat_map labels_of CYCLES)%list in
  do cs <- all_cells g (piecewise_cell (times g) (month_index (grid_months g) BREAKPOINT) CYCLES);
  Ok (coef_maps labels (fun k => if (k =? 2)%nat then BREAKPOINT else START) (fun k => if (k =? 1)%nat then BREAKPOINT else END) cs ++
      amp_maps 3 "" START END (flat_map amps_of CYCLES) cs ++ stat_maps "px1" START END cs)%list.
End Programs.
