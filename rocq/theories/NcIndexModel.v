(** Model of index files: harmonics.to_index (harmonics.py 1057-1102) and from_index (574-620) with the names of the files (compressuser 194-213,
    case_insensitive_filename 165-192, which the classes spatial and geocenter and the readers repeat line by line).  Dates are used (date=True).
    A name is its text; the file system of NcModel is indexed by absolute names.  The index file is not one of the data files.  Formats: netCDF4 and HDF5
    (ascii files: TextModel), any other format (None). *)
From Coq Require Import Reals Ascii String.
From Verif Require Import Base TimeModel Arr HarmModel UtilModel NcModel.
Close Scope Z_scope.
Close Scope R_scope.
Open Scope nat_scope.
Open Scope list_scope.
Definition text : Type := list ascii.
Definition key (p : text) : string := string_of_list_ascii p.
Fixpoint after (a s : text) : option text := match a, s with [], _ => Some s | c :: a, d :: s => if Ascii.eqb c d then after a s else None | _, [] => None end.
Definition slash : ascii := "/"%char.
Definition tilde : ascii := "~"%char.
(** pathlib.Path(f).expanduser().absolute() of a name without . and .. and without a user name after the tilde (181, 206; 1081, 838) *)
Definition absolute (home cwd : text) (f : text) : text :=
  match f with
  | c :: r => if Ascii.eqb c tilde then match r with [] => home | d :: _ => if Ascii.eqb d slash then home ++ r else cwd ++ slash :: f end
              else if Ascii.eqb c slash then f else cwd ++ slash :: f
  | [] => cwd
  end.
(** 206-213: relative to the home directory if it is below it *)
Definition compress (home cwd : text) (f : text) : text :=
  let p := absolute home cwd f in
  match after home p with
  | Some [] => [tilde]
  | Some (c :: r) => if Ascii.eqb c slash then tilde :: c :: r else p
  | None => p
  end.
(** print adds a line feed; str.splitlines ends a line at any of the separators (ASCII), \r\n is one *)
Definition newline : ascii := ascii_of_nat 10.
Definition is_separator (c : ascii) : bool := existsb (Nat.eqb (nat_of_ascii c)) [10; 11; 12; 13; 28; 29; 30].
Fixpoint splitlines_at (cur : text) (s : text) : list text :=
  match s with
  | [] => match cur with [] => [] | _ => [rev cur] end
  | c :: r => if is_separator c then
                rev cur :: (match nat_of_ascii c, r with 13, d :: r' => if Nat.eqb (nat_of_ascii d) 10 then splitlines_at [] r' else splitlines_at [] r | _, _ => splitlines_at [] r end)
              else splitlines_at (c :: cur) r
  end.
Definition splitlines (s : text) : list text := splitlines_at [] s.
(** 602-605: lines that are not empty and begin with neither # nor % *)
Definition is_entry (l : text) : bool := match l with [] => false | c :: _ => negb (Ascii.eqb c "#"%char || Ascii.eqb c "%"%char) end.

(** 183-190: the name as regular expression, ignoring the case, at the beginning of the names of the directory; a point stands for any character.
    Other special characters of regular expressions in the name are not modelled *)
Definition special (c : ascii) : bool := existsb (Ascii.eqb c) (list_ascii_of_string "\*+?()[]{}|^$").
Definition lower (c : ascii) : nat := let n := nat_of_ascii c in if (65 <=? n) && (n <=? 90) then n + 32 else n.
Fixpoint begins (name f : text) : bool :=
  match name, f with
  | [], _ => true
  | c :: name, d :: f => ((Ascii.eqb c "."%char && negb (Nat.eqb (nat_of_ascii d) 10)) || Nat.eqb (lower c) (lower d)) && begins name f
  | _, [] => false
  end.
(** directory and name: the text up to the last slash, and after it *)
Fixpoint until_slash (s : text) : text * text :=
  match s with [] => ([], []) | c :: r => if Ascii.eqb c slash then ([], s) else let '(a, b) := until_slash r in (c :: a, b) end.
Definition split_name (p : text) : text * text := let '(n, d) := until_slash (rev p) in (rev d, rev n).
(** [ls d]: the names in the directory d, in the order of iterdir; the last one that matches is taken (f.pop()) *)
Definition resolve (ls : text -> list text) (fs : files) (p : text) : res text :=
  match fs (key p) with
  | Some _ => Ok p
  | None => let '(d, n) := split_name p in
            if existsb special n then Err OtherExn else
            match rev (filter (begins n) (ls d)) with [] => Err FileNotFound | f :: _ => Ok (d ++ f) end
  end.

(** 1081-1102: the text of the index file, the files, the outcome; index() (1521-1550) gives objects without attributes *)
Fixpoint to_index (home cwd : text) (fmt : option kind) (s : software) (o : opts) (x : obj) (names : list text) (i : nat) (fs : files) : text * files * res unit :=
  match names with
  | [] => ([], fs, Ok tt)
  | f :: rest =>
      let line := compress home cwd f ++ [newline] in
      match index (o_h x) (Z.of_nat i) with
      | Err e => (line, fs, Err e)
      | Ok h =>
          let '(fs1, r) := match fmt with Some k => let '(fs1, _, r) := write_file k s o (mkobj h []) (key (absolute home cwd f)) fs in (fs1, r) | None => (fs, Ok tt) end in
          match r with
          | Err e => (line, fs1, Err e)
          | Ok _ => let '(t, fs2, r2) := to_index home cwd fmt s o x rest (S i) fs1 in (line ++ t, fs2, r2)
          end
      end
  end.
(** 602-620; [order]: np.argsort of the times, or 0, 1, 2, ... with sort=False *)
Definition read_entry (home cwd : text) (ls : text -> list text) (fs : files) (l : text) : res harm :=
  do p <- resolve ls fs (absolute home cwd l); do y <- read_file true (key p) fs; Ok (o_h y).
Definition from_index (home cwd : text) (ls : text -> list text) (fmt : option kind) (order : list nat) (index_file : text) (fs : files) : res harm :=
  do hs <- match fmt with Some _ => mapM (read_entry home cwd ls fs) (filter is_entry (splitlines index_file)) | None => Ok [] end;
  from_list order hs.
