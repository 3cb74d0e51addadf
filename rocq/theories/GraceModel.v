(** Model of grace_find_months.py, grace_date.py, read_GRACE_harmonics.py and grace_input_months.py.
    Text parsing (file names, columns of numbers) is not modelled: files are given by what is parsed from them.
    Dates are exact rationals, coefficients are reals. *)
From Coq Require Import QArith Qround Reals Qreals.
From Verif Require Import Base TimeModel DestripeModel LinAlg RegressModel.
Open Scope Z_scope.

(** ** grace_find_months.py 121-141.  [mon]: month column of the date file *)
Definition zmin (l : list Z) : Z := match l with [] => 0 | x :: t => fold_left Z.min t x end.
Definition zmax (l : list Z) : Z := match l with [] => 0 | x :: t => fold_left Z.max t x end.
(** np.arange(a, b) *)
Definition arange (a b : Z) : list Z := map (fun k => a + Z.of_nat k) (seq 0 (Z.to_nat (b - a))).
Definition mem (x : Z) (l : list Z) : bool := existsb (Z.eqb x) l.
Record month_info := mkinfo { mi_start : Z; mi_end : Z; mi_missing : list Z }.
(** sorted(set(all) - set(mon)) with [all] an increasing range.  np.loadtxt gives a 0-d array for a file with one row, which
    set() cannot iterate over (TypeError); np.min of an empty array raises ValueError. *)
Definition grace_find_months (cnes : bool) (mon : list Z) : res month_info :=
  match mon with
  | [] => Err ValueError
  | [_] => Err TypeError
  | _ => let missing := filter (fun m => negb (mem m mon)) (arange 1 (zmax mon)) in
         Ok (mkinfo (zmin mon) (zmax mon) (if cnes then missing else skipn 3 missing))
  end.

(** ** grace_date.py 176-287 *)
(** start and end of a file: year and (decimal) day of the year *)
Record period := mkper { p_sy : Z; p_sd : Q; p_ey : Z; p_ed : Q }.
(** lines 195-200: GRAZ and Swarm files; both days use the month lengths of the start year.  A date is (year, month, day, hour, minute, second) *)
Record stamp := mkstamp { s_y : Z; s_m : Z; s_d : Q; s_h : Q; s_mi : Q; s_s : Q }.
Definition doy (dpm : list Z) (x : stamp) : Q :=
  (inject_Z (sumZ (firstn (Z.to_nat (s_m x - 1)) dpm)) + s_d x + s_h x / 24 + s_mi x / 1440 + s_s x / 86400)%Q.
Definition gfc_period (a b : stamp) : option period :=
  match calendar_days (s_y a) with None => None | Some dpm => Some (mkper (s_y a) (doy dpm a) (s_y b) (doy dpm b)) end.
(** line 212 *)
Definition dpy (y : Z) : option Z := match calendar_days y with None => None | Some l => Some (sumZ l) end.
(** lines 214-216 *)
Definition mid_day (n : Z) (p : period) : Q := ((p_sd p + (inject_Z ((p_ey p - p_sy p) * n) + p_ed p)) / 2)%Q.
(** lines 219-222 *)
Definition mid_date (n : Z) (p : period) : Z * Z :=
  let '(y, m, _, _, _, _) := convert_julian (convert_calendar_dates (inject_Z (p_sy p)) 1 (mid_day n p) 0 0 0 0 1 + (4800001 # 2))%Q in (y, m).
(** line 225 (and read_GRACE_harmonics.py 162-169) *)
Definition tdec (n : Z) (p : period) : Q := (inject_Z (p_sy p) + mid_day n p / inject_Z n)%Q.
(** lines 228-239: days before the start year, from 2002 on *)
Fixpoint count_days (k : nat) : Z :=
  match k with O => 0 | S j => count_days j + match dpy (2002 + Z.of_nat j) with Some d => d | None => 0 end end.
Definition tot_days (n : Z) (p : period) : Q :=
  let c := inject_Z (count_days (Z.to_nat (p_sy p - 2002))) in ((c + p_sd p + (c + (inject_Z ((p_ey p - p_sy p) * n) + p_ed p))) / 2)%Q.
(** one file: mid-date, days since 2002, month number (242-249); [first] is tot_days[0] *)
Definition date_row (cnes : bool) (first : Q) (p : period) : option (Q * Q * Z) :=
  match dpy (p_sy p) with
  | None => None
  | Some n => let '(y, m) := mid_date n p in
     Some (tdec n p, tot_days n p,
           if cnes then Qround_even (1 + (tot_days n p - first) / 10)%Q else calendar_to_grace (inject_Z y) m)
  end.
Definition grace_months (cnes : bool) (ps : list period) : list Z :=
  let first := match ps with [] => 0%Q | p :: _ => match dpy (p_sy p) with Some n => tot_days n p | None => 0%Q end end in
  map (fun p => match date_row cnes first p with Some (_, _, m) => m | None => 0 end) ps.
(** lines 257-272: the dictionary month -> file, later files overwrite earlier ones *)
Definition grace_dict {F} (cnes : bool) (ps : list (period * F)) (month : Z) : option F :=
  fold_left (fun acc mf => if fst mf =? month then Some (snd mf) else acc) (combine (adjust_months (grace_months cnes (map fst ps))) (map snd ps)) None.

(** ** read_GRACE_harmonics.py 154-289 *)
Close Scope Z_scope.
Open Scope R_scope.
Inductive line := Coef (l m : nat) (c s ec es : R) | Dota (l m : nat) (c s : R) | Other.
Record ylms := mkylms { y_clm : nat -> nat -> R; y_slm : nat -> nat -> R; y_eclm : nat -> nat -> R; y_eslm : nat -> nat -> R; y_time : R; y_start : R; y_end : R }.
(** a[l,m] = v *)
Definition set2 (f : nat -> nat -> R) (l m : nat) (v : R) : nat -> nat -> R := fun i j => if (Nat.eqb i l && Nat.eqb j m)%bool then v else f i j.
(** lines 215-228 *)
Definition coef_step (lmax mmax : nat) (y : ylms) (x : line) : ylms :=
  match x with
  | Coef l m c s ec es => if ((l <=? lmax) && (m <=? mmax))%nat%bool then
      mkylms (set2 (y_clm y) l m c) (set2 (y_slm y) l m s) (set2 (y_eclm y) l m ec) (set2 (y_eslm y) l m es) (y_time y) (y_start y) (y_end y) else y
  | _ => y
  end.
(** lines 230-237: the drift arrays exist only for RL04 GSM (None otherwise); no check of the degree *)
Fixpoint drifts (lmax mmax : nat) (dr : option ((nat -> nat -> R) * (nat -> nat -> R))) (ls : list line) : res (option ((nat -> nat -> R) * (nat -> nat -> R))) :=
  match ls with
  | [] => Ok dr
  | Dota l m c s :: rest =>
    match dr with
    | None => Err UnboundLocalError
    | Some (dc, ds) => if ((l <=? lmax) && (m <=? mmax))%nat%bool then drifts lmax mmax (Some (set2 dc l m c, set2 ds l m s)) rest else Err IndexError
    end
  | _ :: rest => drifts lmax mmax dr rest
  end.
Inductive centre := CSRJPL | GFZ | OtherCentre.
(** lines 252-284: the amounts subtracted from C21 and S21 *)
Definition pole_tide (ctr : centre) (time : R) : option (R * R) :=
  let dt := time - 2000 in
  let lin m1 m2 := ((-1551 / 1000 * / 10 ^ 9) * (m1 - 62 / 100 * / 10 ^ 3 * dt) - (12 / 1000 * / 10 ^ 9) * (m2 + 348 / 100 * / 10 ^ 3 * dt),
                    (21 / 1000 * / 10 ^ 9) * (m1 - 62 / 100 * / 10 ^ 3 * dt) - (1505 / 1000 * / 10 ^ 9) * (m2 + 348 / 100 * / 10 ^ 3 * dt)) in
  match ctr with
  | CSRJPL =>
    let '(a0, a1, a2, a3, b0, b1, b2, b3) :=
      if Rlt_dec time 2010
      then (55974 / 10 ^ 6, 18243 / 10 ^ 7, 18413 / 10 ^ 8, 7024 / 10 ^ 9, - (346346 / 10 ^ 6), - (17896 / 10 ^ 7), 10729 / 10 ^ 8, 908 / 10 ^ 9)
      else (23513 / 10 ^ 6, 76141 / 10 ^ 7, 0, 0, - (358891 / 10 ^ 6), 6287 / 10 ^ 7, 0, 0) in
    let m1 := a0 + a1 * dt ^ 1 + a2 * dt ^ 2 + a3 * dt ^ 3 in
    let m2 := b0 + b1 * dt ^ 1 + b2 * dt ^ 2 + b3 * dt ^ 3 in
    Some (lin m1 m2)
  | GFZ => Some (lin 0 0)
  | OtherCentre => None
  end.
(** the whole reader; [n] the days of the start year, [rl04] and [gsm] from the file name *)
Definition read_grace (n : Z) (p : period) (rl04 gsm pt : bool) (ctr : centre) (lmax mmax : nat) (ls : list line) : res ylms :=
  let time := Q2R (tdec n p) in
  let jd y d := Q2R (convert_calendar_dates (inject_Z y) 1 d 0 0 0 0 1 + (4800001 # 2))%Q in
  let z : nat -> nat -> R := fun _ _ => 0 in
  let y0 := mkylms (set2 z 0 0 1) z z z time (jd (p_sy p) (p_sd p)) (jd (p_ey p) (p_ed p)) in
  do dr <- drifts lmax mmax (if (rl04 && gsm)%bool then Some (z, z) else None) ls;
  let y1 := fold_left (coef_step lmax mmax) ls y0 in
  let y2 := match dr with
            | Some (dc, ds) => mkylms (fun l m => y_clm y1 l m + (time - 20033 / 10) * dc l m) (fun l m => y_slm y1 l m + (time - 20033 / 10) * ds l m)
                                      (y_eclm y1) (y_eslm y1) (y_time y1) (y_start y1) (y_end y1)
            | None => y1 end in
  if (pt && gsm)%bool then
    match pole_tide ctr time with
    | Some (c21, s21) =>
      if ((2 <=? lmax) && (1 <=? mmax))%nat%bool
      then Ok (mkylms (set2 (y_clm y2) 2 1 (y_clm y2 2%nat 1%nat - c21)) (set2 (y_slm y2) 2 1 (y_slm y2 2%nat 1%nat - s21)) (y_eclm y2) (y_eslm y2) (y_time y2) (y_start y2) (y_end y2))
      else Err IndexError
    | None => Ok y2
    end
  else Ok y2.

(** ** grace_input_months.py *)
(** line 345 *)
Definition selected (start_mon end_mon : Z) (missing : list Z) : list Z := filter (fun m => negb (mem m missing)) (arange start_mon (end_mon + 1)).
Inductive field := Clm | Slm | Eclm | Eslm.
Definition feqb (a b : field) : bool := match a, b with Clm, Clm | Slm, Slm | Eclm, Eclm | Eslm, Eslm => true | _, _ => false end.
(** the four arrays: field, degree, order, month index *)
Definition cube := field -> nat -> nat -> nat -> R.
Definition set4 (y : cube) (f : field) (l m i : nat) (v : R) : cube :=
  fun f' l' m' i' => if (feqb f' f && Nat.eqb l' l && Nat.eqb m' m && Nat.eqb i' i)%bool then v else y f' l' m' i'.
(** lines 375-398: a file is (degree limit, order limit, coefficients, time); too small a field does not broadcast (ValueError;
    fields of a single degree or order, which numpy would broadcast, are treated alike) *)
Record gfile := mkfile { g_lmax : nat; g_mmax : nat; g_get : field -> nat -> nat -> R; g_time : R }.
Definition load (read : Z -> option (res gfile)) (lmax mmax : nat) (months : list Z) : res (list gfile) :=
  mapM (fun m => match read m with
                 | None => Err KeyError
                 | Some r => do f <- r; if ((lmax <=? g_lmax f) && (mmax <=? g_mmax f))%nat%bool then Ok f else Err ValueError end) months.
Definition nofile : gfile := mkfile 0 0 (fun _ _ _ => 0) 0.
Definition cube_of (fs : list gfile) : cube := fun f l m i => g_get (nth i fs nofile) f l m.
(** lines 675-804: a table is a list of rows (month, values); the values go to the targets in order *)
Definition table := list (Z * list R).
Definition rows_of (t : table) (month : Z) : list (list R) := map snd (filter (fun r => (fst r =? month)%Z) t).
Definition covered (t : table) (ms : list Z) : bool := forallb (fun m => mem m (map fst t)) ms.
(** grace_Ylms[f][l,m,i] = np.copy(data[k]) with k the positions of the month: an index outside the array raises IndexError, more than one row ValueError *)
Fixpoint assign (lmax mmax : nat) (rows : list (list R)) (i j : nat) (targets : list (field * nat * nat)) (y : cube) : res cube :=
  match targets with
  | [] => Ok y
  | (f, l, m) :: rest =>
    if ((l <=? lmax) && (m <=? mmax))%nat%bool then
      match rows with
      | [r] => assign lmax mmax rows i (S j) rest (set4 y f l m i (nth j r 0))
      | _ => Err ValueError
      end
    else Err IndexError
  end.
Fixpoint put_months (lmax mmax : nat) (t : table) (targets : list (field * nat * nat)) (cond : Z -> bool) (ms : list Z) (i : nat) (y : cube) : res cube :=
  match ms with
  | [] => Ok y
  | g :: rest =>
    let rows := rows_of t g in
    do y' <- (if (negb (Nat.eqb (length rows) 0) && cond g)%bool then assign lmax mmax rows i 0 targets y else Ok y);
    put_months lmax mmax t targets cond rest (S i) y'
  end.
Definition replace (lmax mmax : nat) (ms needed : list Z) (cond : Z -> bool) (t : option table) (targets : list (field * nat * nat)) (y : cube) : res cube :=
  match t with
  | None => Ok y
  | Some t => if covered t needed then put_months lmax mmax t targets cond ms 0 y else Err IOErr
  end.
Definition is_single (m : Z) : bool := (176 <? m)%Z.
(** lines 917-968 regress_model; lstsq is modelled for designs of full rank *)
Definition model_col (order : nat) (rel : R) (cycles : list R) (j : nat) (t : R) : R :=
  if (j <=? order)%nat then (t - rel) ^ j
  else let k := (j - order - 1)%nat in let c := nth (k / 2) cycles 1 in
       if Nat.even k then sin (2 * PI * t / c) else cos (2 * PI * t / c).
Definition regress_model (order : nat) (cycles : list R) (rel : R) (t_in d_in : list R) (t_out : R) : R :=
  let p := (order + 1 + 2 * length cycles)%nat in
  let beta := lsq p (length t_in) (fun j i => model_col order rel cycles j (at_ t_in i)) (at_ d_in) in
  rsum p (fun j => beta j * model_col order rel cycles j t_out).
(** degree-1 input: rows month -> [C10; C11; S11], times of the rows *)
Record degree1 := mkdeg1 { d_table : table; d_times : list R }.
Definition deg1_targets : list (field * nat * nat) := [(Clm, 1, 0); (Clm, 1, 1); (Slm, 1, 1)]%nat.
Fixpoint put_deg1 (lmax mmax : nat) (t : table) (model : option (nat -> R -> R)) (ms : list Z) (times : list R) (i : nat) (y : cube) : res cube :=
  match ms with
  | [] => Ok y
  | g :: rest =>
    let rows := rows_of t g in
    do y' <- match model, rows with
             | Some f, [] => assign lmax mmax [[f 0%nat (nth i times 0); f 1%nat (nth i times 0); f 2%nat (nth i times 0)]] i 0 deg1_targets y
             | _, _ => assign lmax mmax rows i 0 deg1_targets y
             end;
    put_deg1 lmax mmax t model rest times (S i) y'
  end.
Definition replace_deg1 (lmax mmax : nat) (ms : list Z) (d : option degree1) (use_model : bool) (times : list R) (y : cube) : res cube :=
  match d with
  | None => Ok y
  | Some d =>
    if use_model then
      let f c t := regress_model 2 [1 / 2; 1] (20033 / 10) (d_times d) (map (fun r => nth c (snd r) 0) (d_table d)) t in
      put_deg1 lmax mmax (d_table d) (Some f) ms times 0 y
    else if covered (d_table d) ms then put_deg1 lmax mmax (d_table d) None ms times 0 y else Err IOErr
  end.
(** lines 834-914 read_ecmwf_corrections: three files of (l, m, c, s); the last line of a coefficient counts *)
Definition atm_file := list (nat * nat * R * R).
Definition atm_read (lmax mmax : nat) (a : atm_file) (l m : nat) : R * R :=
  fold_left (fun acc x => let '(l1, m1, c, s) := x in if ((l1 <=? lmax) && (m1 <=? mmax) && Nat.eqb l1 l && Nat.eqb m1 m)%nat%bool then (c, s) else acc) a (0, 0).
Definition atm_of (gae gaf gag : atm_file) (g : Z) : option atm_file :=
  if ((50 <=? g) && (g <=? 97))%Z%bool then Some gae else if ((98 <=? g) && (g <=? 161))%Z%bool then Some gaf
  else if (161 <? g)%Z then Some gag else None.
(** the corrections are stored in arrays of size (LMAX+1, LMAX+1): MMAX must equal LMAX (or be 0, which broadcasts) *)
Definition ecmwf (lmax mmax : nat) (gae gaf gag : atm_file) (ms : list Z) : res (nat -> nat -> nat -> R * R) :=
  if (existsb (fun g => (50 <=? g)%Z) ms && negb (Nat.eqb mmax lmax) && negb (Nat.eqb mmax 0))%bool then Err ValueError
  else Ok (fun l m i => match atm_of gae gaf gag (nth i ms 0%Z) with Some a => atm_read lmax mmax a l m | None => (0, 0) end).
Inductive dset := GSM | GAC | GAA | GAB | GAD.
(** lines 807-823 *)
Definition apply_atm (lmax mmax : nat) (d : dset) (corr : nat -> nat -> nat -> R * R) (y : cube) : cube :=
  let sgn := match d with GSM => -1 | GAC | GAA => 1 | _ => 0 end in
  fun f l m i => if ((m <=? l) && (l <=? lmax) && (m <=? mmax))%nat%bool then
      match f with Clm => y f l m i + sgn * fst (corr l m i) | Slm => y f l m i + sgn * snd (corr l m i) | _ => y f l m i end
    else y f l m i.
Record products := mkprod { c20 : option table; c21 : option table; c22 : option table; c30 : option table; c40 : option table; c50 : option table;
                            deg1 : option degree1; model_deg1 : bool; atm : option (atm_file * atm_file * atm_file) }.
(** result: months, times, coefficients *)
Definition grace_input_months (read : Z -> option (res gfile)) (lmax mmax : nat) (ds : dset) (start_mon end_mon : Z) (missing : list Z) (p : products)
  : res (list Z * list R * cube) :=
  let ms := selected start_mon end_mon missing in
  do fs <- load read lmax mmax ms;
  let times := map g_time fs in
  let single := filter is_single ms in
  do y <- replace lmax mmax ms ms (fun _ => true) (c20 p) [(Clm, 2, 0); (Eclm, 2, 0)]%nat (cube_of fs);
  do y <- replace lmax mmax ms single is_single (c21 p) [(Clm, 2, 1); (Slm, 2, 1); (Eclm, 2, 1); (Eslm, 2, 1)]%nat y;
  do y <- replace lmax mmax ms single is_single (c22 p) [(Clm, 2, 2); (Slm, 2, 2); (Eclm, 2, 2); (Eslm, 2, 2)]%nat y;
  do y <- replace lmax mmax ms single is_single (c30 p) [(Clm, 3, 0); (Eclm, 3, 0)]%nat y;
  do y <- replace lmax mmax ms single is_single (c40 p) [(Clm, 4, 0); (Eclm, 4, 0)]%nat y;
  do y <- replace lmax mmax ms single is_single (c50 p) [(Clm, 5, 0); (Eclm, 5, 0)]%nat y;
  do y <- replace_deg1 lmax mmax ms (deg1 p) (model_deg1 p) times y;
  do y <- match atm p with
          | None => Ok y
          | Some (gae, gaf, gag) => do c <- ecmwf lmax mmax gae gaf gag ms; Ok (apply_atm lmax mmax ds c y) end;
  Ok (ms, times, y).
