(** Model of index files of spatial fields: spatial.to_index (spatial.py 1052-1097) and from_index (546-595) with from_list (597-666), for netCDF4 and HDF5 files and
    other formats (None; ascii files: SpatialModel).  Dates are used (date=True).  Names, lines and the search for files are those of NcIndexModel, whose code is repeated
    in this class (138-165, 167-187). *)
From Coq Require Import Reals Ascii String.
From Verif Require Import Base TimeModel Arr HarmModel.
From Verif Require NcModel.
From Verif Require Import NcIndexModel SpatialModel SpNcModel.
Close Scope Z_scope.
Close Scope R_scope.
Open Scope nat_scope.
Open Scope list_scope.
(** 1073-1097: index() gives objects without attributes (1320) *)
Fixpoint to_index (home cwd : text) (fmt : option kind) (s : software) (o : opts) (x : sp) (names : list text) (i : nat) (fs : files) : text * files * res unit :=
  match names with
  | [] => ([], fs, Ok tt)
  | f :: rest =>
      let line := app (compress home cwd f) [newline] in
      match sindex x (Z.of_nat i) with
      | Err e => (line, fs, Err e)
      | Ok g =>
          let '(fs1, r) := match fmt with Some k => let '(fs1, _, r) := write_file k s o (mksobj g (Some [])) (key (absolute home cwd f)) fs in (fs1, r) | None => (fs, Ok tt) end in
          match r with
          | Err e => (line, fs1, Err e)
          | Ok _ => let '(t, fs2, r2) := to_index home cwd fmt s o x rest (S i) fs1 in (app line t, fs2, r2)
          end
      end
  end.
(** the file that is taken for a name: only the existence of a file of that name counts *)
Definition search (ls : text -> list text) (fs : files) (p : text) : res text :=
  resolve ls (fun q => match fs q with Some _ => Some NcModel.empty_file | None => None end) p.
(** an object read as a grid: 619-626 take the first two lengths of the data (IndexError if there are fewer), 643-650 two axes (ValueError if there are more).
    Axes whose values are missing are not modelled *)
Definition axis_list (a : option (nd val)) : res (list R) :=
  match a with
  | Some d => match shape d with [n] => mapM (fun i => match cell d [i] with Some t => Ok t | None => Err OtherExn end) (seq 0 n) | [] => match cell d [] with Some t => Ok [t] | None => Err OtherExn end | _ => Err OtherExn end
  | None => Err AttributeError
  end.
Definition as_grid (r : robj) : res sp :=
  match shape (q_data r) with
  | [a; b] =>
      do lon <- axis_list (q_lon r); do lat <- axis_list (q_lat r);
      let grid {A} (v : nd A) : arr A := mkarr a b None (fun i j _ => cell v [i; j]) in
      Ok (mksp (grid (q_data r)) (grid (q_mask r)) (option_map grid (q_err r)) lon lat (q_time r) (q_month r) (q_fill r))
  | [] | [_] => Err IndexError
  | _ => Err ValueError
  end.
(** 575-595; [order]: np.argsort of the times, or 0, 1, 2, ... with sort=False *)
Definition read_entry (home cwd : text) (ls : text -> list text) (fs : files) (o : ropts) (l : text) : res robj :=
  do p <- search ls fs (absolute home cwd l); read_file o (key p) fs.
Definition from_index (home cwd : text) (ls : text -> list text) (fmt : option kind) (order : list nat) (o : ropts) (index_file : text) (fs : files) : res sp :=
  do rs <- match fmt with Some _ => mapM (read_entry home cwd ls fs o) (filter is_entry (splitlines index_file)) | None => Ok [] end;
  do gs <- mapM as_grid rs; sfrom_list order gs.
