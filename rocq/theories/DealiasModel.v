(** Model of scripts/dealiasing_monthly_mean.py: monthly means of the atmospheric and oceanic dealiasing product (AOD1B) for the months of the GRACE
    date file, and of the SHM files it writes.
    A monthly archive is given by its year, month and members (in the order of the names of the archives), a member by the date in its name, its modification time and its lines; a line by
    what the two regular expressions find in it.  Archives and members whose names do not match are left out.  Names of output files are given by what they are made of.
    Log messages, permissions, attributes and the index file of the SHM format are not modelled. *)
From Coq Require Import QArith Qround Reals Qreals String.
From Verif Require Import Base TimeModel Arr HarmModel.
From Verif Require GraceModel.
Open Scope Z_scope.

(** 93-97 *)
Definition calc_julian_day (YEAR DAY_OF_YEAR : Z) : Q :=
  (367 * inject_Z YEAR - inject_Z (Qfloor (7 * (inject_Z YEAR + inject_Z (Qfloor (10 / 12))) / 4))
   - inject_Z (Qfloor (3 * (inject_Z (Qfloor ((inject_Z YEAR + 8 / 7) / 100)) + 1) / 4))
   + inject_Z (Qfloor (275 / 9)) + inject_Z DAY_OF_YEAR + (3442057 # 2))%Q.

(** 112, 318-338: a line of a member: product and hour of a header (DATA ... SET ... product, HH:MM:SS), and the first four numbers *)
Record aline := mkaline { a_head : option (string * Z); a_nums : option (nat * nat * R * R) }.
Record member := mkmember { m_date : Z * Z * Z; m_mtime : Z; m_lines : list aline }.
Record archive := mkarchive { ar_month : Z * Z; ar_members : list member }.
(** 170-181: a row of the date file; the mid-date is read in single precision: multiples of 1/8192 for years 1024 to 2047 *)
Record row := mkrow { t_dec : Q; g_month : Z; st_yr : Z; st_day : Z; end_yr : Z; end_day : Z; total : Z }.
Definition single (t : Q) : Q := (inject_Z (Qround_even (8192 * t)) / 8192)%Q.

(** range(a, b) *)
Definition range (a b : Z) : list Z := map (fun k => a + Z.of_nat k) (seq 0 (Z.to_nat (b - a))).
(** 192-205; calendar_days(...) is None for no integer year (C05) *)
Definition julian_days (r : row) : res (list Q) :=
  if negb (st_yr r =? end_yr r)
  then match calendar_days (st_yr r) with
       | None => Err AttributeError
       | Some dpm => Ok (map (calc_julian_day (st_yr r)) (range (st_day r) (sumZ dpm + 1)) ++ map (calc_julian_day (end_yr r)) (range 1 (end_day r + 1)))
       end
  else Ok (map (calc_julian_day (st_yr r)) (range (st_day r) (end_day r + 1))).
(** 219-221 *)
Definition ymd (JD : Q) : Z * Z * Z := let '(Y, M, D, _, _, _) := convert_julian JD in (Y, M, D).
Definition ym (x : Z * Z * Z) : Z * Z := fst x.
Definition eq2 (a b : Z * Z) : bool := (fst a =? fst b) && (snd a =? snd b).
Definition eq3 (a b : Z * Z * Z) : bool := eq2 (fst a) (fst b) && (snd a =? snd b).
(** 223-228, 231, 238-247: the members read *)
Definition members_of (dates : list (Z * Z * Z)) (archives : list archive) : list member :=
  flat_map (fun a => if existsb (fun d => eq2 (ym d) (ar_month a)) dates then filter (fun m => existsb (eq3 (m_date m)) dates) (ar_members a) else []) archives.

(** 312-341: [nt] data sets of a product.  At the end of the file readline returns an empty line again and again: the loop over the headers does not end (None), the one over the
    coefficients raises IndexError *)
Fixpoint find_header (product : string) (ls : list aline) : option (Z * list aline) :=
  match ls with
  | [] => None
  | x :: rest => match a_head x with Some (p, h) => if String.eqb p product then Some (h, rest) else find_header product rest | None => find_header product rest end
  end.
Fixpoint take_coefs (n : nat) (ls : list aline) : res (list (nat * nat * R * R) * list aline) :=
  match n with
  | O => Ok ([], ls)
  | S n => match ls with
           | [] => Err IndexError
           | x :: rest => match a_nums x with None => Err IndexError | Some v => do r <- take_coefs n rest; Ok (v :: fst r, snd r) end
           end
  end.
Fixpoint read_member (product : string) (nh nt : nat) (ls : list aline) : res (option (list (Z * list (nat * nat * R * R)))) :=
  match nt with
  | O => Ok (Some [])
  | S nt =>
    match find_header product ls with
    | None => Ok None
    | Some (h, rest) =>
      do r <- take_coefs nh rest;
      do more <- read_member product nh nt (snd r);
      Ok (match more with Some l => Some ((h, fst r) :: l) | None => None end)
    end
  end.
(** an epoch: date, hour, coefficients *)
Definition epoch : Type := (Z * Z * Z) * Z * list (nat * nat * R * R).
(** 295-343 *)
Fixpoint read_members (product : string) (nh nt : nat) (ms : list member) : res (option (list epoch)) :=
  match ms with
  | [] => Ok (Some [])
  | m :: rest =>
    do e <- read_member product nh nt (m_lines m);
    match e with
    | None => Ok None
    | Some l => do more <- read_members product nh nt rest;
                Ok (match more with Some k => Some (map (fun x => (m_date m, fst x, snd x)) l ++ k) | None => None end)
    end
  end.

(** 284-287, 329-338: the flattened series; degrees and orders are those of the last epoch *)
Definition nocoef : nat * nat * R * R := (0%nat, 0%nat, 0%R, 0%R).
Definition deg_of (x : nat * nat * R * R) : nat := fst (fst (fst x)).
Definition ord_of (x : nat * nat * R * R) : nat := snd (fst (fst x)).
(** 346: decimal years *)
Definition epoch_time (e : epoch) : R := let '((Y, M, D), h, _) := e in Q2R (convert_calendar_decimal Y M (Some (inject_Z D)) (Some (inject_Z h)) None None None).
Definition series (grace : R -> Z) (L0 nh : nat) (es : list epoch) : flat :=
  let last_set := match rev es with e :: _ => snd e | [] => [] end in
  let at_ (t k : nat) := nth k (snd (nth t es (0, 0, 0, 0, []))) nocoef in
  mkflat L0 L0 (map (fun k => deg_of (nth k last_set nocoef)) (seq 0 nh)) (map (fun k => ord_of (nth k last_set nocoef)) (seq 0 nh)) (Some (List.length es))
    (map (fun k => fun t => snd (fst (at_ t k))) (seq 0 nh)) (map (fun k => fun t => snd (at_ t k)) (seq 0 nh))
    (TArr (map epoch_time es)) (TArr (map (fun e => grace (epoch_time e)) es)).
(** 350-355 *)
Definition monthly_mean (grace : R -> Z) (L0 nh LMAX : nat) (gm : Z) (es : list epoch) : res harm :=
  do y <- expand true (series grace L0 nh es);
  let y := truncate y (Some LMAX) 0 None in
  do r <- mean y false None;
  let '(_, (mc, ms, _, _)) := r in
  Ok (mkharm LMAX LMAX mc ms (TScalar (Rmean (map epoch_time es))) (TScalar gm)).

(** 117-136: epochs in a day, degree of the product *)
Definition release (DREL : string) : res (nat * nat) :=
  if existsb (String.eqb DREL) ["RL01"; "RL02"; "RL03"; "RL04"; "RL05"]%string then Ok (4%nat, 100%nat)
  else if String.eqb DREL "RL06" then Ok (8%nat, 180%nat) else Err ValueError.
Definition n_coefs (L : nat) : nat := Nat.div (L * L + 3 * L) 2 + 1.
Definition product_of (DSET : string) : res string :=
  if String.eqb DSET "GAA" then Ok "atm"%string else if String.eqb DSET "GAB" then Ok "ocn"%string else if String.eqb DSET "GAC" then Ok "glo"%string else if String.eqb DSET "GAD" then Ok "oba"%string else Err KeyError.
(** 156, 208-216: what the name of an output file is made of: start and end in SHM names (with the mission), else degree and month *)
Inductive name := NShm (sy sd ey ed : Z) (grace : bool) | NMonth (LMAX : nat) (gm : Z).
Definition name_eqb (a b : name) : bool :=
  match a, b with
  | NShm a1 a2 a3 a4 a5, NShm b1 b2 b3 b4 b5 => (a1 =? b1) && (a2 =? b2) && (a3 =? b3) && (a4 =? b4) && Bool.eqb a5 b5
  | NMonth l m, NMonth l' m' => (Nat.eqb l l' && (m =? m'))%bool
  | _, _ => false
  end.
Definition out_name (shm : bool) (LMAX : nat) (r : row) : name := if shm then NShm (st_yr r) (st_day r) (end_yr r) (end_day r) (g_month r <=? 186) else NMonth LMAX (g_month r).
Definition files : Type := name -> option (harm * R).
Definition put (f : files) (n : name) (x : harm * R) : files := fun k => if name_eqb k n then Some x else f k.

(** how the program ends *)
Inductive outcome := Done | Raised (e : exn) | Endless.
Section Program.
(** calendar_to_grace of a decimal year (C02); the time at which the file of a month is written *)
Context (grace : R -> Z) (clock : row -> R).
(** 190-386, one month: files, whether the month is listed in the date file, outcome *)
Definition one_month (product : string) (nt L0 LMAX : nat) (shm clobber : bool) (archives : list archive) (f : files) (r : row) : files * bool * outcome :=
  match julian_days r with
  | Err e => (f, false, Raised e)
  | Ok JD =>
    let ms := members_of (map ymd JD) archives in
    if (List.length JD <? List.length ms)%nat then (f, false, Raised IndexError) else
    let complete := (List.length ms =? List.length JD)%nat in
    let test := match f (out_name shm LMAX r) with Some (_, t) => existsb (fun m => if Rlt_dec t (IZR (m_mtime m)) then true else false) ms | None => true end in
    if (complete && (test || clobber))%bool then
      match read_members product (n_coefs L0) nt ms with
      | Err e => (f, true, Raised e)
      | Ok None => (f, true, Endless)
      | Ok (Some es) => match monthly_mean grace L0 (n_coefs L0) LMAX (g_month r) es with Err e => (f, true, Raised e) | Ok h => (put f (out_name shm LMAX r) (h, clock r), true, Done) end
      end
    else (f, complete, Done)
  end.
(** 190-404: all months; an exception ends the program, and the new date file holds the rows printed before *)
Fixpoint all_months (product : string) (nt L0 LMAX : nat) (shm clobber : bool) (archives : list archive) (f : files) (rows : list row) : files * list row * outcome :=
  match rows with
  | [] => (f, [], Done)
  | r :: rest =>
    let '(f1, listed, o) := one_month product nt L0 LMAX shm clobber archives f r in
    let out := if listed then [mkrow (single (t_dec r)) (g_month r) (st_yr r) (st_day r) (end_yr r) (end_day r) (total r)] else [] in
    match o with
    | Done => let '(f2, l, o2) := all_months product nt L0 LMAX shm clobber archives f1 rest in (f2, (out ++ l)%list, o2)
    | _ => (f1, out, o)
    end
  end.
(** 100-404: files, rows of the new date file (None: not opened), outcome.  A date file with one row cannot be iterated over (loadtxt gives a scalar), after the new one was opened *)
Definition dealiasing_monthly_mean (DREL DSET : string) (LMAX : nat) (shm clobber : bool) (archives : list archive) (rows : list row) (f : files) : files * option (list row) * outcome :=
  match product_of DSET, release DREL with
  | Err e, _ | _, Err e => (f, None, Raised e)
  | Ok product, Ok (nt, L0) =>
    let LMAX := if (LMAX =? 0)%nat then L0 else LMAX in
    match rows with
    | [_] => (f, Some [], Raised TypeError)
    | _ => let '(f', l, o) := all_months product nt L0 LMAX shm clobber archives f rows in (f', Some l, o)
    end
  end.
End Program.

(** 457-467: the lines of an SHM file; [rd]: printing with 12 decimals.  The header lines are those before *)
Definition to_SHM (rd : R -> R) (head : nat) (h : harm) : list GraceModel.line :=
  (repeat GraceModel.Other head ++
   flat_map (fun m => map (fun l => GraceModel.Coef l m (rd (get (clm h) l m 0)) (rd (get (slm h) l m 0)) 0%R 0%R) (seq m (lmax h + 1 - m))) (seq 0 (mmax h + 1)))%list.
