(** Model of gravity_toolkit/spatial.py, text files of scaling factors: scaling_factors.from_ascii 1802-1914 (from the numbers found on the lines after the header on; the number
    pattern is that of TextModel.v), to_ascii 1916-1940, update_mask 1991-2005.  The file is a list of lines, each the numbers found on it; printing rounds with [rd].
    Grids are rank 2, as in Arr.v and SpatialModel.v; the object that reads keeps its error and magnitude arrays (None in a new object, 1799-1800; arrays after kfactor). *)
From Coq Require Import Reals.
From Verif Require Import Base TimeModel Arr HarmModel SpatialModel.
Close Scope Z_scope.
Open Scope nat_scope.

Record factors := mkf { data : arr val; mask : arr bool; error : option (arr val); magnitude : option (arr val); lon : list R; lat : list R; fill : option val }.
(** names of columns; [KOther k]: any other name *)
Inductive key := KLon | KLat | KFactor | KError | KMagnitude | KData | KTime | KOther (k : nat).
Definition key_eqb (a b : key) : bool :=
  match a, b with
  | KLon, KLon | KLat, KLat | KFactor, KFactor | KError, KError | KMagnitude, KMagnitude | KData, KData | KTime, KTime => true
  | KOther i, KOther j => i =? j | _, _ => false end.
(** 1842 *)
Definition default_columns : list key := [KLon; KLat; KFactor; KError; KMagnitude].
(** 1899: dict over zip(columns, numbers), the last of a name counts *)
Definition lookup (d : list (key * R)) (k : key) : res R :=
  match find (fun p => key_eqb k (fst p)) (rev d) with Some p => Ok (snd p) | None => Err KeyError end.
(** a[i,j] = v of an attribute that may be None *)
Definition put (a : option (arr val)) (i j : nat) (v : R) : res (option (arr val)) :=
  match a with
  | None => Err TypeError
  | Some a => if (i <? rows a) && (j <? cols a) then Ok (Some (setcell a i j (Some v))) else Err IndexError
  end.
(** 1899-1911: one line.  Numbers on the right hand side are looked up before the cell is written *)
Definition read_factor (columns : list key) (dlon dlat : R) (s : factors) (nums : list R) : res factors :=
  let d := combine columns nums in
  do x <- lookup d KLon;
  do y <- lookup d KLat;
  do v <- lookup d KData;
  do i <- py_index (length (lat s)) (Rfloor ((90 - y) / dlat));
  do j <- py_index (length (lon s)) (Rtrunc (x / dlon));
  do e <- lookup d KError;
  do e' <- put (error s) i j e;
  do g <- lookup d KMagnitude;
  do g' <- put (magnitude s) i j g;
  Ok (mkf (setcell (data s) i j (Some v)) (setcell (mask s) i j false) e' g' (upd (lon s) j x) (upd (lat s) i y) (fill s)).
Fixpoint read_factors columns dlon dlat (s : factors) (ls : list (list R)) : res factors :=
  match ls with [] => Ok s | l :: t => do s' <- read_factor columns dlon dlat s l; read_factors columns dlon dlat s' t end.
(** 1991-2005; arrays of another shape: IndexError *)
Definition mask_of (k : arr bool) (v : val) (a : option (arr val)) (s : arr val) : res (option (arr val)) :=
  match a with None => Ok None | Some e => if shape_eqb e s then Ok (Some (masked_set k v e)) else Err IndexError end.
Definition update_mask (s : factors) : res factors :=
  match fill s with
  | None => Ok s
  | Some f =>
      if negb (shape_eqb (mask s) (data s)) then Err IndexError else
      let k := mkarr (rows (data s)) (cols (data s)) (depth (data s)) (fun i j t => get (mask s) i j t || veqb (get (data s) i j t) f || isnan (get (data s) i j t)) in
      do e <- mask_of k f (error s) (data s);
      do g <- mask_of k f (magnitude s) (data s);
      Ok (mkf (masked_set k f (data s)) k e g (lon s) (lat s) (fill s))
  end.
(** 1868-1914: [lon0], [lat0] are the axes set up from extent, spacing or numbers of points; 1892: the date is no column *)
Definition from_ascii (columns : list key) (lon0 lat0 : list R) (dlon dlat : R) (s : factors) (ls : list (list R)) : res factors :=
  let nlat := length lat0 in let nlon := length lon0 in
  do r <- read_factors (filter (fun c => negb (key_eqb c KTime)) columns) dlon dlat
            (mkf (full nlat nlon None (Some 0%R)) (full nlat nlon None false) (error s) (magnitude s) lon0 lat0 (fill s)) ls;
  update_mask r.
(** 1916-1940: the lines written; error[i,j] of None is a TypeError, at the first cell (the file is there by then) *)
Definition at_cell (rd : R -> R) (a : option (arr val)) (i j : nat) : res (list R) :=
  match a with None => Err TypeError | Some a => if (i <? rows a) && (j <? cols a) then Ok (tok rd (get a i j 0)) else Err IndexError end.
Definition to_ascii (rd : R -> R) (s : factors) : res (list (list R)) :=
  let valid := filter (fun p => differs (get (data s) (fst p) (snd p) 0) (fill s) && negb (get (mask s) (fst p) (snd p) 0)) (cells (data s)) in
  mapM (fun p => do e <- at_cell rd (error s) (fst p) (snd p);
                 do g <- at_cell rd (magnitude s) (fst p) (snd p);
                 Ok ([rd (nth (snd p) (lon s) 0%R); rd (nth (fst p) (lat s) 0%R)] ++ tok rd (get (data s) (fst p) (snd p) 0) ++ e ++ g)) valid.
