(** Model of the netCDF4 and HDF5 files of spatial fields: spatial.to_netCDF4 (spatial.py 766-908), to_HDF5 (910-1050), from_netCDF4 (306-420), from_HDF5 (422-544),
    default_field_mapping (1133-1161), to_file (1099-1131) and from_file (674-702) for these formats, with the names of the variables, the attributes, the state of the
    file and of the object after an exception.  The libraries are trusted to store and return arrays, numbers and texts.  Compressed files, log messages and the attribute
    filename are not modelled, nor are attributes by which the netCDF4 library changes the values (scale_factor, add_offset). *)
From Coq Require Import Reals String.
From Verif Require Import Base TimeModel Arr HarmModel.
From Verif Require NcModel.
From Verif Require Import SpatialModel.
Close Scope Z_scope.
Close Scope R_scope.
Open Scope nat_scope.
Open Scope list_scope.
Notation dict := NcModel.dict.
Notation dget := NcModel.dget.
Notation dset := NcModel.dset.
Notation kind := NcModel.kind.
Notation NetCDF4 := NcModel.NetCDF4.
Notation HDF5 := NcModel.HDF5.
Notation software := NcModel.software.

(** values of attributes: None, a text, a list of texts, a number (None: nan), a dictionary *)
Inductive attr := NoVal | Text (s : string) | Texts (l : list string) | Num (v : val) | Sub (d : dict attr).
(** a spatial object; attributes None: a list instead of a dictionary, as from_list leaves it (line 637) *)
Record sobj := mksobj { x_sp : sp; x_attrs : option (dict attr) }.

(** arrays of any number of dimensions: shape and values *)
Record nd (A : Type) := mknd { shape : list nat; cell : list nat -> A }.
Arguments mknd {A}. Arguments shape {A}. Arguments cell {A}.
Definition of_grid (a : arr val) : nd val :=
  mknd (match depth a with None => [rows a; cols a] | Some n => [rows a; cols a; n] end)
       (fun ix => match ix with [i; j] => get a i j 0 | [i; j; t] => get a i j t | _ => None end).
Definition of_list (l : list R) : nd val := mknd [List.length l] (fun ix => match ix with [i] => Some (nth i l 0%R) | _ => None end).
Definition of_number (x : R) : nd val := mknd [] (fun _ => Some x).
(** np.squeeze: every axis of length 1 is removed *)
Fixpoint unsqueeze (sh ix : list nat) : list nat :=
  match sh with
  | [] => []
  | n :: sh' => if n =? 1 then 0 :: unsqueeze sh' ix else match ix with i :: ix' => i :: unsqueeze sh' ix' | [] => [] end
  end.
Definition squeeze {A} (a : nd A) : nd A := mknd (filter (fun n => negb (n =? 1)) (shape a)) (fun ix => cell a (unsqueeze (shape a) ix)).
(** the attribute T *)
Definition transpose {A} (a : nd A) : nd A := mknd (rev (shape a)) (fun ix => cell a (rev ix)).

(** a variable: its values (None: created, not yet written; netCDF4 only) and its attributes *)
Record var := mkvar { v_data : option (nd val); v_attrs : dict attr }.
Record gfile := mkgfile { g_dims : list string; g_vars : dict var; g_root : dict attr }.
Definition empty_file : gfile := mkgfile [] [] [].
Definition files : Type := string -> option gfile.
Definition put (fs : files) (p : string) (f : gfile) : files := fun q => if String.eqb q p then Some f else fs q.

(** keyword arguments with their defaults: 806-823, 950-967 *)
Record opts := mkopts {
  w_var : string; w_lon : string; w_lat : string; w_time : string;
  w_mapping : dict string;                       (* field_mapping *)
  w_attrs : option (dict (dict attr));           (* attributes, None: not given *)
  w_units : option string; w_longname : option string; w_time_units : string; w_time_longname : string;
  w_title : option string; w_source : option string; w_reference : option string;
  w_date : bool; w_clobber : bool }.
Definition default_opts : opts := mkopts "z" "lon" "lat" "time" [] None None None "years" "Date_in_Decimal_Years" None None None true true.

(** 825-828: mode a opens an existing file; 969-972: mode w- refuses it *)
Definition opened (k : kind) (clobber : bool) (f : option gfile) : res gfile :=
  if clobber then Ok empty_file else match k, f with NetCDF4, Some x => Ok x | HDF5, Some _ => Err IOErr | _, None => Ok empty_file end.
(** 1133-1161: the names of longitude, latitude, field and time in this order *)
Definition default_field_mapping (names : list string) : dict string := combine ["lon"; "lat"; "data"; "time"]%string names.
(** 830-834, 974-978 *)
Definition mapping (o : opts) : dict string :=
  match w_mapping o with
  | [] => default_field_mapping ([w_lon o; w_lat o; w_var o] ++ if w_date o then [w_time o] else [])
  | m => m
  end.
(** 812, 956: the dictionary ROOT of the object itself, if it is there and not empty *)
Definition root_of (a : dict attr) : option (dict attr) := match dget "ROOT" a with Some (Sub (e :: d)) => Some (e :: d) | _ => None end.
Definition may (v : option string) : attr := match v with None => NoVal | Some s => Text s end.
(** 836-852, 980-996: default attributes of the variables, if a variable of the file is no key of the attributes *)
Definition describe (m : dict string) (field : string) (long_name units : attr) (A : dict (dict attr)) : res (dict (dict attr)) :=
  match dget field m with None => Err KeyError | Some key => Ok (dset key [("long_name"%string, long_name); ("units"%string, units)] A) end.
Definition attributes (o : opts) (a : dict attr) : res (dict (dict attr)) :=
  let m := mapping o in
  let A := match w_attrs o with Some A => A | None => [("ROOT"%string, match root_of a with Some d => d | None => [] end)] end in
  if forallb (fun e => match dget (snd e) A with Some _ => true | None => false end) m then Ok A else
  do A <- describe m "lon" (Text "longitude") (Text "degrees_east") A;
  do A <- describe m "lat" (Text "latitude") (Text "degrees_north") A;
  do A <- describe m "data" (may (w_longname o)) (may (w_units o)) A;
  if w_date o then describe m "time" (Text (w_time_longname o)) (Text (w_time_units o)) A else Ok A.
(** 854-859, 998-1003: the entries are set in the dictionary ROOT of the attributes *)
Definition entry (name : string) (v : option string) (A : dict (dict attr)) : res (dict (dict attr)) :=
  match v with
  | None | Some EmptyString => Ok A
  | Some s => match dget "ROOT" A with None => Err KeyError | Some d => Ok (dset "ROOT" (dset name (Text s) d) A) end
  end.
Definition titled (o : opts) (A : dict (dict attr)) : res (dict (dict attr)) :=
  do A <- entry "title" (w_title o) A; do A <- entry "source" (w_source o) A; entry "reference" (w_reference o) A.
(** which is the one of the object, unless attributes are given.  Simplification: no variable of the file is called ROOT *)
Definition keep (o : opts) (a : dict attr) (A : dict (dict attr)) : dict attr :=
  match w_attrs o, root_of a, dget "ROOT" A with None, Some _, Some d => dset "ROOT" (Sub d) a | _, _, _ => a end.

(** getattr(self,field): names of other attributes of the object are not modelled.  An array holding None (no date, expanded) is refused by both libraries *)
Definition value_of (date : bool) (s : sp) (field : string) : res (nd val) :=
  if String.eqb field "lon" then Ok (of_list (slon s)) else if String.eqb field "lat" then Ok (of_list (slat s))
  else if String.eqb field "data" then Ok (of_grid (sdata s))
  else if String.eqb field "error" then match serr s with Some e => Ok (of_grid e) | None => Err AttributeError end
  else if String.eqb field "time" then match stime s with TArr l => Ok (of_list l) | TScalar x => Ok (of_number x) | TNone => Err (if date then TypeError else AttributeError) end
  else Err AttributeError.
(** 861-868, 1005-1012: the dimensions and their names *)
Definition dimensions (date : bool) : list string := ["lat"; "lon"]%string ++ if date then ["time"]%string else [].
Definition name_of (m : dict string) (field : string) : res string := match dget field m with Some key => Ok key | None => Err KeyError end.

(** netCDF4, 872-876: dimensions with their variables *)
Definition add_var (f : gfile) (key : string) (a : dict attr) : gfile * res unit :=
  match dget key (g_vars f) with Some _ => (f, Err OtherExn) | None => (mkgfile (g_dims f) (g_vars f ++ [(key, mkvar None a)]) (g_root f), Ok tt) end.
Fixpoint make_dims (date : bool) (s : sp) (m : dict string) (l : list string) (f : gfile) : gfile * res unit :=
  match l with
  | [] => (f, Ok tt)
  | field :: rest =>
      match name_of m field with
      | Err e => (f, Err e)
      | Ok key =>
          if existsb (String.eqb key) (g_dims f) then (f, Err OtherExn) else
          let f := mkgfile (g_dims f ++ [key]) (g_vars f) (g_root f) in
          match value_of date s field with
          | Err e => (f, Err e)
          | Ok _ => match add_var f key [] with (f, Ok _) => make_dims date s m rest f | r => r end
          end
      end
  end.
(** 878-884: the other variables in alphabetical order, with the fill value *)
Fixpoint insert (x : string) (l : list string) : list string := match l with [] => [x] | y :: t => if String.leb x y then x :: l else y :: insert x t end.
Definition others (date : bool) (m : dict string) : list string :=
  fold_right insert [] (filter (fun x => negb (existsb (String.eqb x) (dimensions date))) (map fst m)).
Definition fill_attr (s : sp) : dict attr := match sfill s with Some v => [("_FillValue"%string, Num v)] | None => [] end.
Fixpoint make_vars (date : bool) (s : sp) (m : dict string) (l : list string) (f : gfile) : gfile * res unit :=
  match l with
  | [] => (f, Ok tt)
  | field :: rest =>
      match value_of date s field, name_of m field with
      | Err e, _ | _, Err e => (f, Err e)
      | Ok _, Ok key => match add_var f key (fill_attr s) with (f, Ok _) => make_vars date s m rest f | r => r end
      end
  end.
(** 889-895, 1021-1027: attributes that are empty, zero, or used by the libraries are left out; None and dictionaries are no values of attributes *)
Definition reserved (k : kind) : list string := match k with NetCDF4 => ["DIMENSION_LIST"; "CLASS"; "NAME"; "_FillValue"]%string | HDF5 => ["DIMENSION_LIST"; "CLASS"; "NAME"]%string end.
Definition truthy (v : attr) : bool :=
  match v with NoVal | Text EmptyString | Texts [] | Sub [] => false | Num (Some x) => if Req_EM_T x 0 then false else true | _ => true end.
Definition kept (k : kind) (e : string * attr) : bool := negb (existsb (String.eqb (fst e)) (reserved k)) && truthy (snd e).
Definition bad (v : attr) : bool := match v with NoVal | Sub _ => true | _ => false end.
Fixpoint put_attrs (l d : dict attr) : dict attr * res unit :=
  match l with [] => (d, Ok tt) | (n, v) :: t => if bad v then (d, Err TypeError) else put_attrs t (dset n v d) end.
(** netCDF4, 886-895.  The values must have the lengths of the dimensions; what the library does with another arrangement of the same number of values, or
    with a single value, is not modelled *)
Definition product (l : list nat) : nat := fold_right Nat.mul 1 l.
Definition lengths (date : bool) (s : sp) : list nat :=
  [List.length (slat s); List.length (slon s)] ++ (if date then match stime s with TArr l => [List.length l] | _ => [1] end else []).
Definition fits (sizes : list nat) (field : string) (v : nd val) : res unit :=
  let want := if String.eqb field "lat" then firstn 1 sizes else if String.eqb field "lon" then firstn 1 (skipn 1 sizes)
              else if String.eqb field "time" && (List.length sizes =? 3) then skipn 2 sizes else firstn (List.length (shape v)) sizes in
  if list_eq_dec Nat.eq_dec (shape v) want then Ok tt else
  if (product (shape v) =? product want) || (product (shape v) =? 1) then Err OtherExn else Err ValueError.
Fixpoint fill_nc (date : bool) (s : sp) (A : dict (dict attr)) (m : dict string) (f : gfile) : gfile * res unit :=
  match m with
  | [] => (f, Ok tt)
  | (field, key) :: rest =>
      match (do v <- value_of date s field; do _ <- fits (lengths date s) field v; Ok v), dget key (g_vars f) with
      | Err e, _ => (f, Err e)
      | Ok _, None => (f, Err KeyError)
      | Ok v, Some w =>
          let with_attrs a := mkgfile (g_dims f) (dset key (mkvar (Some v) a) (g_vars f)) (g_root f) in
          match dget key A with
          | None => (with_attrs (v_attrs w), Err KeyError)
          | Some a => match put_attrs (filter (kept NetCDF4) a) (v_attrs w) with
                      | (b, Err e) => (with_attrs b, Err e)
                      | (b, Ok _) => fill_nc date s A rest (with_attrs b)
                      end
          end
      end
  end.
(** HDF5, 1014-1027; a single number cannot be compressed *)
Fixpoint fill_h5 (date : bool) (s : sp) (A : dict (dict attr)) (m : dict string) (f : gfile) : gfile * res unit :=
  match m with
  | [] => (f, Ok tt)
  | (field, key) :: rest =>
      match (do v <- value_of date s field; match shape v with [] => Err TypeError | _ => Ok v end) with
      | Err e => (f, Err e)
      | Ok v =>
          match dget key (g_vars f) with
          | Some _ => (f, Err ValueError)
          | None =>
              let with_attrs a := mkgfile (g_dims f) (g_vars f ++ [(key, mkvar (Some v) a)]) (g_root f) in
              match dget key A with
              | None => (with_attrs [], Err KeyError)
              | Some a => match put_attrs (filter (kept HDF5) a) [] with
                          | (b, Err e) => (with_attrs b, Err e)
                          | (b, Ok _) => fill_h5 date s A rest (with_attrs b)
                          end
              end
          end
      end
  end.
(** HDF5, 1029-1037: the scales of the dimensions (not kept here), then the fill value *)
Fixpoint fill_values (date : bool) (s : sp) (m : dict string) (l : list string) (f : gfile) : gfile * res unit :=
  match l with
  | [] => (f, Ok tt)
  | field :: rest =>
      match name_of m field with
      | Err e => (f, Err e)
      | Ok key =>
          match dget key (g_vars f) with
          | Some (mkvar (Some v) a) =>
              if List.length (shape v) <? List.length (dimensions date) then (f, Err IndexError) else
              fill_values date s m rest (mkgfile (g_dims f) (dset key (mkvar (Some v) (match sfill s with Some x => dset "_FillValue" (Num x) a | None => a end)) (g_vars f)) (g_root f))
          | _ => (f, Err KeyError)
          end
      end
  end.
Definition and_then {S} (r : S * res unit) (g : S -> S * res unit) : S * res unit := match r with (s, Ok _) => g s | _ => r end.
(** 870-895, 1014-1037 *)
Definition variables (k : kind) (date : bool) (s : sp) (A : dict (dict attr)) (m : dict string) (f : gfile) : gfile * res unit :=
  match k with
  | NetCDF4 => and_then (make_dims date s m (dimensions date) f) (fun f => and_then (make_vars date s m (others date m) f) (fill_nc date s A m))
  | HDF5 => and_then (fill_h5 date s A m f) (fill_values date s m (others date m))
  end.
(** 897-903, 1039-1045 *)
Definition sign_file (s : software) (d : dict attr) : dict attr :=
  dset "date_created" (Text (NcModel.s_today s)) (dset "software_version" (Text (NcModel.s_version s)) (dset "software_reference" (Text (NcModel.s_name s)) d)).
(** the whole of to_netCDF4 and to_HDF5: the files and the object afterwards, and the outcome *)
Definition write_file (k : kind) (s : software) (o : opts) (x : sobj) (p : string) (fs : files) : files * sobj * res unit :=
  match x_attrs x with None => (fs, x, Err AttributeError) | Some a =>
  match opened k (w_clobber o) (fs p) with Err e => (fs, x, Err e) | Ok f0 =>
  match (do A <- attributes o a; titled o A) with Err e => (put fs p f0, x, Err e) | Ok A =>
  let a' := Some (keep o a A) in
  match (if w_date o then sexpand (x_sp x) else Ok (x_sp x)) with Err e => (put fs p f0, mksobj (x_sp x) a', Err e) | Ok g =>
  let x' := mksobj g a' in
  match mapM (name_of (mapping o)) (dimensions (w_date o)) with Err e => (put fs p f0, x', Err e) | Ok _ =>
  match variables k (w_date o) g A (mapping o) f0 with (f2, Err e) => (put fs p f2, x', Err e) | (f2, Ok _) =>
  match dget "ROOT" A with None => (put fs p f2, x', Err KeyError) | Some root =>
  match put_attrs root (g_root f2) with
  | (d, Err e) => (put fs p (mkgfile (g_dims f2) (g_vars f2) d), x', Err e)
  | (d, Ok _) => (put fs p (mkgfile (g_dims f2) (g_vars f2) (sign_file s d)), x', Ok tt)
  end end end end end end end end.

(** ** reading *)
(** keyword arguments: 338-345, 454-461 *)
Record ropts := mkropts { r_var : string; r_lon : string; r_lat : string; r_time : string; r_mapping : dict string; r_date : bool }.
Definition default_ropts : ropts := mkropts "z" "lon" "lat" "time" [] true.
(** 378-382, 504-508 *)
Definition rmapping (o : ropts) : dict string :=
  match r_mapping o with [] => default_field_mapping ([r_lon o; r_lat o; r_var o] ++ if r_date o then [r_time o] else []) | m => m end.
(** the object read: arrays of any number of dimensions *)
Record robj := mkrobj { q_data : nd val; q_mask : nd bool; q_err : option (nd val); q_lon : option (nd val); q_lat : option (nd val); q_time : tval R; q_month : tval Z; q_fill : option val; q_attrs : dict attr }.
(** 384-396, 510-520: a variable that is missing is a KeyError; one that was created and never written is not modelled *)
Definition attributes_list : list string := ["description"; "units"; "long_name"; "calendar"; "standard_name"; "_FillValue"; "missing_value"]%string.
Definition read_attrs (a : dict attr) : dict attr := flat_map (fun n => match dget n a with Some v => [(n, v)] | None => [] end) attributes_list.
Fixpoint read_vars (f : gfile) (m : dict string) : res (list (string * (nd val * dict attr))) :=
  match m with
  | [] => Ok []
  | (field, key) :: rest =>
      match dget key (g_vars f) with
      | None => Err KeyError
      | Some (mkvar None _) => Err OtherExn
      | Some (mkvar (Some v) a) => do t <- read_vars f rest; Ok ((field, (squeeze v, read_attrs a)) :: t)
      end
  end.
(** 414-417, 538-541: the dates are a number or a list of numbers *)
Definition grace_month (t : R) : Z := (Rfloor (12 * (t - 2002)) + 1)%Z.
Definition dates (v : nd val) : res (tval R) :=
  match shape v with
  | [] => match cell v [] with Some t => Ok (TScalar t) | None => Err OtherExn end
  | [n] => do l <- mapM (fun i => match cell v [i] with Some t => Ok t | None => Err OtherExn end) (seq 0 n); Ok (TArr l)
  | _ => Err OtherExn
  end.
Definition months (t : tval R) : tval Z :=
  match t with TNone => TNone | TScalar t => tsqueeze (TArr (adjust_months [grace_month t])) | TArr l => tsqueeze (TArr (adjust_months (map grace_month l))) end.
(** len(self.lon) == sz[0]; len of an array without dimensions and of None is a TypeError *)
Definition lon_first (lon : option (nd val)) (v : nd val) : res bool :=
  match shape v with [a; _] => match lon with Some x => match shape x with n :: _ => Ok (n =? a) | [] => Err TypeError end | None => Err TypeError end | _ => Ok false end.
(** 404-420, 528-544, with update_mask (1170-1180): an error array of another shape than the mask is an IndexError *)
Definition read_file (o : ropts) (p : string) (fs : files) : res robj :=
  match fs p with
  | None => Err FileNotFound
  | Some f =>
      do vs <- read_vars f (rmapping o);
      let field n := option_map fst (dget n vs) in
      match dget "data" vs with
      | None => Err AttributeError
      | Some (d0, da) =>
          do tr <- lon_first (field "lon"%string) d0;
          let d := if tr then transpose d0 else d0 in
          do fv <- match dget "_FillValue" da with None => Ok None | Some (Num v) => Ok (Some v) | Some _ => Err OtherExn end;
          do t <- match field "time"%string with Some v => dates v | None => if r_date o then Err TypeError else Ok TNone end;
          let mask := mknd (shape d) (fun ix => match fv with Some v => veqb (cell d ix) v || isnan (cell d ix) | None => false end) in
          let filled a := mknd (shape a) (fun ix => if cell mask ix then match fv with Some v => v | None => cell a ix end else cell a ix) in
          do e <- match field "error"%string with
                  | None => Ok None
                  | Some e => match fv with None => Ok (Some e) | Some _ => if list_eq_dec Nat.eq_dec (shape e) (shape d) then Ok (Some (filled e)) else Err IndexError end
                  end;
          Ok (mkrobj (filled d) mask e (field "lon"%string) (field "lat"%string) t (if r_date o then months t else TNone) fv
                (map (fun e => (fst e, Sub (snd (snd e)))) vs ++ [("ROOT"%string, Sub (g_root f))]))
      end
  end.

(** to_file 1099-1131, from_file 674-702 for the formats of this file: another format (ascii left out) is no error, nothing is written, and None is read *)
Definition kind_of (format : string) : option kind := if String.eqb format "netCDF4" then Some NetCDF4 else if String.eqb format "HDF5" then Some HDF5 else None.
Definition to_file (s : software) (format : string) (o : opts) (x : sobj) (p : string) (fs : files) : files * sobj * res unit :=
  match kind_of format with Some k => write_file k s o x p fs | None => (fs, x, Ok tt) end.
Definition from_file (format : string) (o : ropts) (p : string) (fs : files) : res (option robj) :=
  match kind_of format with Some _ => do r <- read_file o p fs; Ok (Some r) | None => Ok None end.
