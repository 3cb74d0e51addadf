(** utilities.py 2011-2115 (compile_regex_pattern) and scripts/make_grace_index.py 44-84 (make_grace_index): the file index.txt of every product directory.
    Names are texts (ASCII) as in NameModel. *)
From Coq Require Import Ascii String.
From Verif Require Import Base UtilModel TextModel NcIndexModel NameModel IndexModel.
Close Scope Z_scope.
Open Scope nat_scope.
Open Scope list_scope.

(** The version is a piece of the regular expression: the default \d+, or a text without special characters; it may be None.  An int (2063-2064) is not modelled. *)
Inductive vers := AnyVersion | Version (s : text) | NoVersion.
(** str.zfill(2) *)
Definition zfill2 (s : text) : text :=
  match s with
  | c :: t => if is_sign c then c :: repeat "0"%char (2 - List.length s) ++ t else repeat "0"%char (2 - List.length s) ++ s
  | [] => repeat "0"%char 2
  end.
(** version.zfill(2) of the pattern \d+ (three characters) is unchanged *)
Definition version_rx (v : vers) : res rx :=
  match v with AnyVersion => Ok some_digits | Version s => Ok (Word Ascii.eqb (zfill2 s)) | NoVersion => Err AttributeError end.
(** [a-zA-Z0-9_\-]+ *)
Definition name_char (c : ascii) : bool :=
  let n := nat_of_ascii c in
  (((97 <=? n) && (n <=? 122)) || ((65 <=? n) && (n <=? 90)) || is_digit c || Ascii.eqb c "_"%char || Ascii.eqb c "-"%char)%bool.
Definition name_chars : rx := Sq (Times 1 name_char) (Many name_char).
Definition gz : rx := Maybe (Group (lit ".gz")).
(** (\d+)\.(\d+) of 2081 *)
Definition decimal_pattern : rx := seqs [Group some_digits; lit "."; Group some_digits].
(** the name of the mission in the pattern: str.format prints None as the word *)
Definition mission_text (m : option string) : string := match m with Some s => s | None => "None" end.
(** dates, then the fields of the name: 2073, 2078, 2083, 2087, 2093, 2098, 2103, 2108 *)
Definition monthly_rx (dset : string) (aux : rx) (rest : list rx) : rx :=
  seqs ([lit dset; lit "-2_"; some_digits; lit "-"; some_digits; lit "_"; aux; lit "_"] ++ rest ++ [gz; Eos]).
Definition one_of (s : string) (l : list string) : bool := existsb (String.eqb s) l.
(** str.endswith *)
Definition ends_with (s w : text) : bool := str_eqb (skipn (List.length s - List.length w) s) w.
(** utilities.py 2057-2120.  [dset] and [solution] hold no special characters; the release is 'RL' with digits in the branches that use re.findall. *)
Definition compile_pattern (proc drel dset : string) (mission : option string) (solution : string) (version : vers) : res rx :=
  if match mission with Some m => negb (String.eqb m "") && negb (one_of m ["GRAC"; "GRFO"]%string) | None => false end then Err ValueError
  else if negb (one_of proc ["CNES"; "CSR"; "GFZ"; "JPL"]%string) then Err ValueError
  else if negb (one_of dset ["GAA"; "GAB"; "GAC"; "GAD"; "GSM"]%string) then Err ValueError
  else
    let is_gsm := String.eqb dset "GSM" in
    let m := lit (mission_text mission) in
    if is_gsm && String.eqb proc "CSR" && one_of drel ["RL04"; "RL05"]%string then
      Ok (monthly_rx dset some_digits [lit "UTCSR_0060_000"; lit (if String.eqb drel "RL04" then "4" else "5")])
    else if is_gsm && String.eqb proc "CSR" && String.eqb drel "RL06" then
      do v <- version_rx version; Ok (monthly_rx dset m [lit "UTCSR_"; lit solution; lit "_"; lit "06"; v])
    else if is_gsm && String.eqb proc "CSR" && ends_with (chars drel) (chars "LRI") then
      do g <- last_match decimal_pattern (chars drel);
      match g with
      | [rel; ver] => Ok (monthly_rx dset m [lit "UTCSR_"; lit "EA01"; lit "_"; Word Ascii.eqb (zfill2 rel); Word Ascii.eqb (zfill2 ver)])
      | _ => Err ValueError
      end
    else if is_gsm && String.eqb proc "GFZ" && String.eqb drel "RL04" then
      Ok (monthly_rx dset some_digits [lit "EIGEN_G---_0004"])
    else if is_gsm && String.eqb proc "GFZ" && String.eqb drel "RL05" then
      Ok (monthly_rx dset some_digits [lit "EIGEN_"; Group (ors [lit "G---"; lit "GK2-"]); lit "_005a"])
    else if is_gsm && String.eqb proc "GFZ" && String.eqb drel "RL06" then
      do v <- version_rx version; Ok (monthly_rx dset m [lit "GFZOP_"; lit solution; lit "_"; lit "06"; v])
    else if String.eqb proc "JPL" && one_of drel ["RL04"; "RL05"]%string then
      Ok (monthly_rx dset some_digits [lit "JPLEM_0001_000"; lit (if String.eqb drel "RL04" then "4" else "5")])
    else if is_gsm && String.eqb proc "JPL" && String.eqb drel "RL06" then
      do v <- version_rx version; Ok (monthly_rx dset m [lit "JPLEM_"; lit solution; lit "_"; lit "06"; v])
    else if String.eqb proc "CNES" then
      Ok (monthly_rx dset some_digits [lit "GRGS_"; Group name_chars; Maybe (Group (lit ".txt"))])
    else match mission with
    | Some w => Ok (seqs [lit dset; lit "-2_"; Group name_chars; lit "_"; lit w; lit "_"; Group name_chars; gz; Eos])
    | None => Ok (seqs [lit dset; lit "-2_"; Group name_chars; gz; Eos])
    end.
(** rx.match(name): from the beginning of the name *)
Definition matches (r : rx) (f : text) : bool := match match_at r f with Some _ => true | None => false end.

(** sorted(names), 79 *)
Fixpoint insert_name (a : text) (l : list text) : list text :=
  match l with [] => [a] | b :: t => if text_ltb b a then b :: insert_name a t else a :: b :: t end.
Definition sort_names (l : list text) : list text := fold_right insert_name [] l.

(** The directories of the products: names of the files without index.txt, in the order of iterdir; index.txt begins with no product name and is matched
    by none of the patterns, so leaving it out changes nothing.  [None]: no such directory.  [x_index]: the lines of index.txt. *)
Record shelf := mkshelf { x_files : product -> option (list text); x_index : product -> option (list text) }.
Definition put_index (k : shelf) (p : product) (l : list text) : shelf := mkshelf (x_files k) (fun q => if same q p then Some l else x_index k q).
(** 51, 66: mission and position in VERSION *)
Definition missions : list (nat * string) := [(0, "GRAC"%string); (1, "GRFO"%string)].
(** 66-75: the names for one mission *)
Definition granules (files : list text) (p : product) (versions : list text) (im : nat * string) : res (list text) :=
  let '(pr, rl, ds) := p in
  match nth_error versions (fst im) with
  | None => Err IndexError
  | Some v => do r <- compile_pattern pr rl ds (Some (snd im)) "BA01" (Version v); Ok (filter (matches r) files)
  end.
(** 63-79: the lines of the index *)
Definition index_lines (files : list text) (p : product) (versions : list text) : res (list text) :=
  do gs <- mapM (granules files p versions) missions;
  do kept <- reduce_names (List.concat gs);
  Ok (sort_names kept).
(** 55-84 *)
Fixpoint make_indices (k : shelf) (ps : list product) (versions : list text) : shelf * res unit :=
  match ps with
  | [] => (k, Ok tt)
  | p :: ps =>
     match x_files k p with
     | None => make_indices k ps versions
     | Some files =>
        match index_lines files p versions with
        | Err e => (k, Err e)
        | Ok l => make_indices (put_index k p l) ps versions
        end
     end
  end.
(** the three loops *)
Definition products (proc drel dset : list string) : list product := flat_map (fun pr => flat_map (fun rl => map (fun ds => (pr, rl, ds)) dset) drel) proc.
Definition make_grace_index (k : shelf) (proc drel dset : list string) (versions : list text) : shelf * res unit := make_indices k (products proc drel dset) versions.
