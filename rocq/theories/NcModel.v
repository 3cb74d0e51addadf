(** Model of the netCDF4 and HDF5 files of spherical harmonics: harmonics.to_netCDF4 (harmonics.py 781-924), to_HDF5 (926-1055), from_netCDF4 (294-382),
    from_HDF5 (384-484), to_dict (1138-1155), from_dict (726-748), with the names of the variables, the attributes and the state of the file after an exception.
    The libraries are trusted to store and return arrays and texts.  Compressed files, log messages and the attribute filename are not modelled. *)
From Coq Require Import Reals String.
From Verif Require Import Base TimeModel Arr HarmModel.
Close Scope Z_scope.
Close Scope R_scope.
Open Scope nat_scope.
Open Scope list_scope.

(** Python dictionaries: entries in the order of insertion *)
Definition dict (A : Type) : Type := list (string * A).
Fixpoint dget {A} (k : string) (d : dict A) : option A := match d with [] => None | (k', v) :: t => if String.eqb k' k then Some v else dget k t end.
Fixpoint dset {A} (k : string) (v : A) (d : dict A) : dict A := match d with [] => [(k, v)] | (k', w) :: t => if String.eqb k' k then (k', v) :: t else (k', w) :: dset k v t end.

(** values of attributes: None, a text, a list of texts, a dictionary *)
Inductive aval := ANone | AText (s : string) | AList (l : list string) | ADict (d : dict aval).
(** a harmonics object: the coefficients with their dates, and the dictionary attributes *)
Record obj := mkobj { o_h : harm; o_attrs : dict aval }.

(** a file: names of dimensions (netCDF4 only), variables with data and attributes, attributes of the file *)
Inductive vdata := VIdx (l : list nat) | VCoef (d : option nat) (v : list (nat -> R)) | VTime (l : list R) | VMonth (l : list Z).
Record var := mkvar { v_data : vdata; v_attrs : dict aval }.
Record nfile := mknfile { n_dims : list string; n_vars : dict var; n_root : dict aval }.
Definition empty_file : nfile := mknfile [] [] [].
Definition files : Type := string -> option nfile.
Definition put (fs : files) (p : string) (f : nfile) : files := fun q => if String.eqb q p then Some f else fs q.
Inductive kind := NetCDF4 | HDF5.

(** keyword arguments with their defaults: 818-834, 963-978 *)
Record opts := mkopts {
  w_units : string; w_time_units : string; w_time_longname : string; w_months_name : string; w_months_units : string; w_months_longname : string;
  w_mapping : dict string;                       (* field_mapping *)
  w_attrs : option (dict (dict aval));           (* attributes, None: not given *)
  w_title : option string; w_source : option string; w_reference : option string;
  w_date : bool; w_clobber : bool }.
Definition default_opts : opts := mkopts "Geodesy_Normalization" "years" "Date_in_Decimal_Years" "month" "number" "GRACE_month" [] None None None None true true.
(** gravity_toolkit.version and the date of the day: 914-917, 1047-1050 *)
Record software := mksoft { s_name : string; s_version : string; s_today : string }.

(** 836-839: mode a opens an existing file; 980-983: mode w- refuses it *)
Definition opened (k : kind) (clobber : bool) (f : option nfile) : res nfile :=
  if clobber then Ok empty_file else
  match k, f with NetCDF4, Some x => Ok x | HDF5, Some _ => Err IOErr | _, None => Ok empty_file end.
(** 843-850, 989-996 *)
Definition mapping (o : opts) : dict string :=
  match w_mapping o with
  | [] => [("l", "l"); ("m", "m"); ("clm", "clm"); ("slm", "slm")]%string ++ (if w_date o then [("time", "time"); ("month", w_months_name o)]%string else [])
  | m => m
  end.
(** 823-824, 971-972: the dictionary ROOT of the object itself, if it is there and not empty *)
Definition root_of (x : obj) : option (dict aval) := match dget "ROOT" (o_attrs x) with Some (ADict (e :: d)) => Some (e :: d) | _ => None end.
(** 852-876, 998-1021: default attributes of the variables, if an input name is no key of the attributes *)
Definition describe (m : dict string) (field long_name units : string) (A : dict (dict aval)) : res (dict (dict aval)) :=
  match dget field m with None => Err KeyError | Some key => Ok (dset key [("long_name", AText long_name); ("units", AText units)]%string A) end.
Definition attributes (o : opts) (x : obj) : res (dict (dict aval)) :=
  let m := mapping o in
  let A := match w_attrs o with Some A => A | None => [("ROOT"%string, match root_of x with Some d => d | None => [] end)] end in
  if forallb (fun e => match dget (fst e) A with Some _ => true | None => false end) m then Ok A else
  do A <- describe m "l" "spherical_harmonic_degree" "Wavenumber" A;
  do A <- describe m "m" "spherical_harmonic_order" "Wavenumber" A;
  do A <- describe m "clm" "cosine_spherical_harmonics" (w_units o) A;
  do A <- describe m "slm" "sine_spherical_harmonics" (w_units o) A;
  if w_date o then
    do A <- describe m "time" (w_time_longname o) (w_time_units o) A;
    describe m "month" (w_months_longname o) (w_months_units o) A
  else Ok A.
(** 878-883, 1023-1028: the entries are set in the dictionary ROOT of the attributes *)
Definition entry (name : string) (v : option string) (A : dict (dict aval)) : res (dict (dict aval)) :=
  match v with
  | None | Some EmptyString => Ok A
  | Some s => match dget "ROOT" A with None => Err KeyError | Some d => Ok (dset "ROOT" (dset name (AText s) d) A) end
  end.
Definition titled (o : opts) (A : dict (dict aval)) : res (dict (dict aval)) :=
  do A <- entry "title" (w_title o) A; do A <- entry "source" (w_source o) A; entry "reference" (w_reference o) A.
(** which is the one of the object, unless attributes are given.  Simplification: no variable of the file is called ROOT; of a ValueError between two entries
    (not possible then) no trace is kept *)
Definition keep (o : opts) (x : obj) (A : dict (dict aval)) : obj :=
  match w_attrs o, root_of x, dget "ROOT" A with
  | None, Some _, Some d => mkobj (o_h x) (dset "ROOT" (ADict d) (o_attrs x))
  | _, _, _ => x
  end.
(** 884-892: dimensions of a netCDF4 file *)
Definition add_dim (f : nfile) (d : string) : nfile * res unit :=
  if existsb (String.eqb d) (n_dims f) then (f, Err OtherExn) else (mknfile (n_dims f ++ [d]) (n_vars f) (n_root f), Ok tt).
Definition make_dims (k : kind) (date : bool) (f : nfile) : nfile * res unit :=
  match k with
  | HDF5 => (f, Ok tt)
  | NetCDF4 => match add_dim f "lm" with
               | (f, Ok _) => if date then add_dim f "time" else (f, Ok tt)
               | r => r
               end
  end.
(** 895-904, 1031-1034: the data of a field; the arrays of a netCDF4 file have the dimensions lm and time.  Names of other attributes of the object are not modelled *)
Definition data_of (k : kind) (date : bool) (t : flat) (field : string) : res vdata :=
  let dated {A} (v : res A) := match k with NetCDF4 => if date then v else Err IndexError | HDF5 => v end in
  let shaped (v : vdata) := match k, date, f_depth t with NetCDF4, false, Some _ => Err ValueError | _, _, _ => Ok v end in
  if String.eqb field "l" then Ok (VIdx (f_l t)) else if String.eqb field "m" then Ok (VIdx (f_m t))
  else if String.eqb field "clm" then shaped (VCoef (f_depth t) (f_clm t)) else if String.eqb field "slm" then shaped (VCoef (f_depth t) (f_slm t))
  else if String.eqb field "time" then dated (match f_time t with TArr l => Ok (VTime l) | TScalar x => Ok (VTime [x]) | TNone => if date then Err TypeError else Err AttributeError end)
  else if String.eqb field "month" then dated (match f_month t with TArr l => Ok (VMonth l) | TScalar x => Ok (VMonth [x]) | TNone => if date then Err TypeError else Err AttributeError end)
  else Err AttributeError.
(** 905-913, 1036-1042: attributes that are empty, or used by the libraries, are left out; a dictionary is no value of an attribute *)
Definition kept (e : string * aval) : bool :=
  negb (existsb (String.eqb (fst e)) ["DIMENSION_LIST"; "CLASS"; "NAME"]%string) &&
  match snd e with ANone | AText EmptyString | AList [] | ADict [] => false | _ => true end.
Definition bad (v : aval) : bool := match v with ANone | ADict _ => true | _ => false end.
Fixpoint put_attrs (l : dict aval) (d : dict aval) : dict aval * res unit :=
  match l with
  | [] => (d, Ok tt)
  | (n, v) :: t => if bad v then (d, Err TypeError) else put_attrs t (dset n v d)
  end.
Fixpoint fill (k : kind) (date : bool) (t : flat) (A : dict (dict aval)) (m : dict string) (f : nfile) : nfile * res unit :=
  match m with
  | [] => (f, Ok tt)
  | (field, key) :: rest =>
      match data_of k date t field with
      | Err e => (f, Err e)
      | Ok v =>
          match dget key (n_vars f) with
          | Some _ => (f, Err (match k with NetCDF4 => OtherExn | HDF5 => ValueError end))
          | None =>
              let with_attrs a := mknfile (n_dims f) (n_vars f ++ [(key, mkvar v a)]) (n_root f) in
              match dget key A with
              | None => (with_attrs [], Err KeyError)
              | Some a => match put_attrs (filter kept a) [] with
                          | (b, Err e) => (with_attrs b, Err e)
                          | (b, Ok _) => fill k date t A rest (with_attrs b)
                          end
              end
          end
      end
  end.
Definition sign_file (s : software) (d : dict aval) : dict aval :=
  dset "date_created" (AText (s_today s)) (dset "software_version" (AText (s_version s)) (dset "software_reference" (AText (s_name s)) d)).
(** the whole of to_netCDF4 and to_HDF5: the files and the object afterwards, and the outcome *)
Definition write_file (k : kind) (s : software) (o : opts) (x : obj) (p : string) (fs : files) : files * obj * res unit :=
  match opened k (w_clobber o) (fs p) with
  | Err e => (fs, x, Err e)
  | Ok f0 =>
  match (if w_date o then to_nc (o_h x) else flatten false (o_h x)) with Err e => (put fs p f0, x, Err e) | Ok t =>
  match (do A <- attributes o x; titled o A) with Err e => (put fs p f0, x, Err e) | Ok A =>
  let x' := keep o x A in
  match make_dims k (w_date o) f0 with (f1, Err e) => (put fs p f1, x', Err e) | (f1, Ok _) =>
  match fill k (w_date o) t A (mapping o) f1 with (f2, Err e) => (put fs p f2, x', Err e) | (f2, Ok _) =>
  match dget "ROOT" A with None => (put fs p f2, x', Err KeyError) | Some root =>
  match put_attrs root (n_root f2) with
  | (d, Err e) => (put fs p (mknfile (n_dims f2) (n_vars f2) d), x', Err e)
  | (d, Ok _) => (put fs p (mknfile (n_dims f2) (n_vars f2) (sign_file s d)), x', Ok tt)
  end end end end end end end.

(** 349-380, 451-483: a variable that is missing is a KeyError; one of another type is not modelled *)
Definition get_var (f : nfile) (n : string) : res vdata := match dget n (n_vars f) with Some v => Ok (v_data v) | None => Err KeyError end.
Definition get_idx f n := do v <- get_var f n; match v with VIdx l => Ok l | _ => Err OtherExn end.
Definition get_coef f n := do v <- get_var f n; match v with VCoef d l => Ok (d, l) | _ => Err OtherExn end.
Definition get_time f n := do v <- get_var f n; match v with VTime l => Ok l | _ => Err OtherExn end.
Definition get_month f n := do v <- get_var f n; match v with VMonth l => Ok l | _ => Err OtherExn end.
Definition fields (date : bool) : list string := app ["l"; "m"; "clm"; "slm"]%string (if date then ["time"; "month"]%string else []).
(** 365-374, 466-474: units and long name, if both are there *)
Definition labels (f : nfile) (date : bool) : dict aval :=
  flat_map (fun n => match dget n (n_vars f) with
                     | Some v => match dget "units" (v_attrs v), dget "long_name" (v_attrs v) with Some (AText a), Some (AText b) => [(n, AList [a; b])] | _, _ => [] end
                     | None => [] end) (fields date).
(** without dates the month is an array holding None, here TNone *)
Definition from_undated (f : flat) : res harm :=
  do L <- nat_max (f_l f); do M <- nat_max (f_m f);
  do h <- expand false (mkflat L M (f_l f) (f_m f) (f_depth f) (f_clm f) (f_slm f) TNone TNone); squeeze h.
Definition read_file (date : bool) (p : string) (fs : files) : res obj :=
  match fs p with
  | None => Err FileNotFound
  | Some f =>
      do l <- get_idx f "l"; do m <- get_idx f "m"; do c <- get_coef f "clm"; do s <- get_coef f "slm";
      do h <- (if date then do t <- get_time f "time"; do mo <- get_month f "month"; from_nc (mkflat 0 0 l m (fst c) (snd c) (snd s) (TArr t) (TArr mo))
               else from_undated (mkflat 0 0 l m (fst c) (snd c) (snd s) TNone TNone));
      Ok (mkobj h (labels f date ++ [("ROOT"%string, ADict (n_root f))]))
  end.

(** to_dict 1138-1155 and from_dict 726-748 into a new object: arrays and numbers of numpy (a date that is a number of Python has no method copy and is dropped) *)
Record hdict := mkhdict { d_l : list nat; d_m : list nat; d_clm : arr R; d_slm : arr R; d_time : tval R; d_month : tval Z; d_attrs : option (dict aval) }.
Definition to_dict (x : obj) : hdict :=
  mkhdict (seq 0 (lmax (o_h x) + 1)) (seq 0 (mmax (o_h x) + 1)) (clm (o_h x)) (slm (o_h x)) (time (o_h x)) (month (o_h x)) (Some (o_attrs x)).
Definition from_dict (d : hdict) : res obj :=
  do L <- nat_max (d_l d); do M <- nat_max (d_m d);
  Ok (mkobj (mkharm L M (d_clm d) (d_slm d) (d_time d) (d_month d)) [("ROOT"%string, match d_attrs d with Some a => ADict a | None => ANone end)]).
