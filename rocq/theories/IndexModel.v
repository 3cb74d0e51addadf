(** gravity_toolkit/grace_months_index.py (74-181), scripts/run_grace_date.py (79-117) and the date file written by
    gravity_toolkit/grace_date.py (256-284, OUTPUT=True). *)
From Coq Require Import QArith String Ascii.
From Verif Require Import Base TimeModel GraceModel.
Open Scope Z_scope.

(** A directory of products is named by (centre, release, product): [grace_dir] of grace_date.py 160 and grace_months_index.py 113 *)
Definition product := (string * string * string)%type.
Definition same (a b : product) : bool :=
  match a, b with (p, r, d), (q, s, e) => (String.eqb p q && String.eqb r s && String.eqb d e)%bool end.
(** the dates in the name of a file: start year and day of the year, end year and day (time.py 198-204) *)
Record span := mkspan { sp_sy : Z; sp_sd : Z; sp_ey : Z; sp_ed : Z }.
(** one line of a date file (grace_date.py 272-276).  The mid-date is kept unrounded (8 decimals in the file), the day count is rounded
    ([:8.0f], half to even); the other numbers are integers and are printed exactly. *)
Record drow := mkrow { w_mid : Q; w_mon : Z; w_span : span; w_total : Z }.
(** one line of GRACE_months.txt (grace_months_index.py 175-176): month number, name of the calendar month, year, one entry for each column.
    The widths of the fields are not represented. *)
Inductive entry := Missing | Shown (s : span).
Record tline := mkline { n_mon : Z; n_name : string; n_year : Z; n_cells : list entry }.
(** GRACE_months.txt: the header is missing if the program stopped before line 137 *)
Record table := mktable { tb_head : option (list string); tb_lines : list tline }.
(** What is on the disk.  [index.txt] of a product: the names listed, [None] for a name without dates (the regular expression of
    time.py 198 does not match); [PROC_DREL_DATES.txt] of a product: its lines after the header; GRACE_months.txt. *)
Record disk := mkdisk { k_index : product -> option (list (option span)); k_dates : product -> option (list drow); k_table : option table }.
Definition put_dates (k : disk) (p : product) (rows : list drow) : disk :=
  mkdisk (k_index k) (fun q => if same q p then Some rows else k_dates k q) (k_table k).
Definition put_table (k : disk) (t : table) : disk := mkdisk (k_index k) (k_dates k) (Some t).

(** grace_date.py 205-207 *)
Definition to_period (s : span) : period := mkper (sp_sy s) (inject_Z (sp_sd s)) (sp_ey s) (inject_Z (sp_ed s)).
(** grace_date.py 225, 239, 272-276: the mid-date and the day count of a file *)
Definition row_of (s : span) (mon : Z) : drow :=
  match dpy (sp_sy s) with
  | Some n => mkrow (tdec n (to_period s)) mon s (Qround_even (tot_days n (to_period s)))
  | None => mkrow 0%Q mon s 0
  end.
(** grace_date.py 158-287 with OUTPUT=True for a centre other than CNES, GRAZ and Swarm: the disk after the call and how it ended.
    A name without dates raises at time.py 202 before the date file is opened (261); with one file [mon] is 0-dimensional after
    np.squeeze (time.py 387) and [mon[t]] (269) raises after the header was printed.  The dictionary returned is C12. *)
Definition date_file (k : disk) (p : product) : disk * res unit :=
  match k_index k p with
  | None => (k, Err FileNotFound)
  | Some names =>
     match mapM (fun o => match o with Some s => Ok s | None => Err IndexError end) names with
     | Err e => (k, Err e)
     | Ok spans =>
        match spans with
        | [_] => (put_dates k p [], Err IndexError)
        | _ => let mon := adjust_months (grace_months false (map to_period spans)) in
               (put_dates k p (map (fun sm => row_of (fst sm) (snd sm)) (combine spans mon)), Ok tt)
        end
     end
  end.

Open Scope string_scope.
(** grace_months_index.py 98, 100 *)
Definition centres : list string := ["CSR"; "GFZ"; "GSFC"; "JPL"].
Definition gsm (pr rl : string) : product := (pr, rl, "GSM").
(** grace_months_index.py 123: f'{pr}_{rl}' *)
Definition col_name (pr rl : string) : string := pr ++ "_" ++ rl.
Close Scope string_scope.
(** the dictionary var_info: a new value for a name replaces the old one *)
Definition columns := list (string * list drow).
Fixpoint dict_set (d : columns) (x : string) (v : list drow) : columns :=
  match d with
  | [] => [(x, v)]
  | (y, w) :: t => if String.eqb y x then (x, v) :: t else (y, w) :: dict_set t x v
  end.
Fixpoint dict_get (d : columns) (x : string) : list drow :=
  match d with [] => [] | (y, w) :: t => if String.eqb y x then w else dict_get t x end.
(** lines 103-131: the date files found, and the largest month; max() of no rows raises ValueError *)
Fixpoint collect (k : disk) (prods : list (string * string)) (d : columns) (mx : Z) : res (columns * Z) :=
  match prods with
  | [] => Ok (d, mx)
  | (pr, rl) :: t =>
     match k_dates k (gsm pr rl) with
     | None => collect k t d mx
     | Some [] => Err ValueError
     | Some rows => let m := zmax (map w_mon rows) in
        collect k t (dict_set d (col_name pr rl) rows) (if mx <? m then m else mx)
     end
  end.
(** sorted() of strings (line 134): by the codes of the characters *)
Fixpoint insert (x : string) (l : list string) : list string :=
  match l with [] => [x] | y :: t => if String.leb x y then x :: l else y :: insert x t end.
Definition sorted_names (l : list string) : list string := fold_right insert [] l.
(** lines 149-169: the entry of a column.  Two rows of the month: the unpacking of line 158 raises ValueError; a date file of one row is a
    0-dimensional array, which lines 156-158 cannot index. *)
Definition entry_of (rows : list drow) (m : Z) : res entry :=
  match filter (fun r => w_mon r =? m) rows with
  | [] => Ok Missing
  | [r] => match rows with [_] => Err OtherExn | _ => Ok (Shown (w_span r)) end
  | _ => Err ValueError
  end.
(** calendar.month_abbr *)
Definition month_abbr : list string :=
  [""; "Jan"; "Feb"; "Mar"; "Apr"; "May"; "Jun"; "Jul"; "Aug"; "Sep"; "Oct"; "Nov"; "Dec"]%string.
(** lines 144-176 *)
Definition line_of (d : columns) (names : list string) (m : Z) : res tline :=
  let '(y, mo) := grace_to_calendar m in
  do es <- mapM (fun x => entry_of (dict_get d x) m) names;
  Ok (mkline m (nth (Z.to_nat mo) month_abbr ""%string) y es).
(** lines 142-176: the lines printed before the first failure *)
Fixpoint print_lines (d : columns) (names : list string) (ms : list Z) : list tline * res unit :=
  match ms with
  | [] => ([], Ok tt)
  | m :: t => match line_of d names m with
              | Err e => ([], Err e)
              | Ok x => let '(ls, r) := print_lines d names t in (x :: ls, r)
              end
  end.
(** lines 92-181; the table is emptied when it is opened (94) *)
Definition grace_months_index (k : disk) (drel : list string) : disk * res unit :=
  match collect k (flat_map (fun rl => map (fun pr => (pr, rl)) centres) drel) [] 0 with
  | Err e => (put_table k (mktable None []), Err e)
  | Ok (d, mx) =>
     let names := sorted_names (map fst d) in
     let '(ls, r) := print_lines d names (arange 4 (mx + 1)) in
     (put_table k (mktable (Some names) ls), r)
  end.

Open Scope string_scope.
(** run_grace_date.py 85-101: the products of each centre; VALID and DSET have the same releases *)
Definition valid_releases : list string := ["RL04"; "RL05"; "RL06"].
Definition datasets (pr : string) : option (list string) :=
  if String.eqb pr "CSR" then Some ["GAC"; "GAD"; "GSM"]
  else if String.eqb pr "GFZ" then Some ["GAA"; "GAB"; "GAC"; "GAD"; "GSM"]
  else if String.eqb pr "JPL" then Some ["GAA"; "GAB"; "GAC"; "GAD"; "GSM"]
  else None.
Close Scope string_scope.
Fixpoint in_turn {A} (f : disk -> A -> disk * res unit) (l : list A) (k : disk) : disk * res unit :=
  match l with
  | [] => (k, Ok tt)
  | x :: t => match f k x with (k1, Ok _) => in_turn f t k1 | (k1, Err e) => (k1, Err e) end
  end.
(** lines 104-113 for one centre; VALID[p] of an unknown centre raises KeyError *)
Definition centre_dates (drel : list string) (k : disk) (pr : string) : disk * res unit :=
  match datasets pr with
  | None => (k, match drel with [] => Ok tt | _ => Err KeyError end)
  | Some ds =>
     in_turn (fun k r => in_turn (fun k d => date_file k (pr, r, d)) ds k)
             (filter (fun r => existsb (String.eqb r) valid_releases) drel) k
  end.
(** lines 104-117 *)
Definition run_grace_date (k : disk) (proc drel : list string) : disk * res unit :=
  match in_turn (centre_dates drel) proc k with
  | (k1, Err e) => (k1, Err e)
  | (k1, Ok _) => grace_months_index k1 drel
  end.
