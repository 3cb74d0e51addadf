(** Model of the names of the data files: the regular expressions with groups that take the dates, the centre, the release and the version out of a
    name (time.py 176-204, 207-277, 279-325; read_GRACE_harmonics.py 292-319).  A name is its text (ASCII).  Python's re is modelled on the fragment
    these patterns use; VERBOSE changes nothing, since the patterns hold neither blanks nor #. *)
From Coq Require Import Ascii String QArith.
From Verif Require Import Base TimeModel ReduceModel UtilModel TextModel NcIndexModel GraceModel.
Close Scope Z_scope.
Close Scope Q_scope.
Close Scope R_scope.
Open Scope nat_scope.
Open Scope list_scope.

(** ** re: backtracking matcher.  [k groups matched rest]: what remains to be matched; the first way that succeeds is taken *)
Inductive rx :=
| Few (p : ascii -> bool)            (** x*? *)
| Many (p : ascii -> bool)           (** x* *)
| Times (n : nat) (p : ascii -> bool) (** x{n} *)
| Word (same : ascii -> ascii -> bool) (s : text)  (** literal text *)
| Sq (a b : rx)
| Or (a b : rx)
| Maybe (a : rx)                     (** (a)?: the groups of an absent a are empty texts *)
| Group (a : rx)
| Eos.                               (** $: at the end, or before a line feed at the end *)
(** number of groups *)
Fixpoint groups (r : rx) : nat :=
  match r with Sq a b | Or a b => groups a + groups b | Maybe a => groups a | Group a => S (groups a) | _ => 0 end.
Definition blanks (n : nat) : list text := repeat [] n.
Section Run.
  Context {A : Type}.
  Definition kont : Type := list text -> text -> text -> option A.
  Fixpoint few (p : ascii -> bool) (done s : text) (k : kont) : option A :=
    match k [] done s with
    | Some x => Some x
    | None => match s with c :: t => if p c then few p (done ++ [c]) t k else None | [] => None end
    end.
  Fixpoint many (p : ascii -> bool) (done s : text) (k : kont) : option A :=
    match s with
    | c :: t => if p c then match many p (done ++ [c]) t k with Some x => Some x | None => k [] done s end else k [] done s
    | [] => k [] done s
    end.
  Fixpoint times (n : nat) (p : ascii -> bool) (done s : text) (k : kont) : option A :=
    match n with
    | 0 => k [] done s
    | S n => match s with c :: t => if p c then times n p (done ++ [c]) t k else None | [] => None end
    end.
  Fixpoint word (same : ascii -> ascii -> bool) (w done s : text) (k : kont) : option A :=
    match w with
    | [] => k [] done s
    | c :: w => match s with d :: t => if same c d then word same w (done ++ [d]) t k else None | [] => None end
    end.
  Fixpoint run (r : rx) (s : text) (k : kont) : option A :=
    match r with
    | Few p => few p [] s k
    | Many p => many p [] s k
    | Times n p => times n p [] s k
    | Word same w => word same w [] s k
    | Sq a b => run a s (fun g1 t1 s1 => run b s1 (fun g2 t2 s2 => k (g1 ++ g2) (t1 ++ t2) s2))
    | Or a b => match run a s (fun g t s' => k (g ++ blanks (groups b)) t s') with Some x => Some x | None => run b s (fun g t s' => k (blanks (groups a) ++ g) t s') end
    | Maybe a => match run a s k with Some x => Some x | None => k (blanks (groups a)) [] s end
    | Group a => run a s (fun g t s' => k (t :: g) t s')
    | Eos => match s with [] => k [] [] s | [c] => if Ascii.eqb c newline then k [] [] s else None | _ => None end
    end.
End Run.
(** a match at the beginning: groups and rest *)
Definition match_at (r : rx) (s : text) : option (list text * text) := run r s (fun g _ s' => Some (g, s')).
(** findall of a pattern that never matches the empty text: leftmost matches from left to right *)
Fixpoint findall_from (fuel : nat) (r : rx) (s : text) : list (list text) :=
  match fuel with
  | 0 => []
  | S n => match match_at r s with
           | Some (g, rest) => g :: findall_from n r rest
           | None => match s with [] => [] | _ :: t => findall_from n r t end
           end
  end.
Definition find_groups (r : rx) (s : text) : list (list text) := findall_from (S (List.length s)) r s.
(** .pop() of the list *)
Definition last_match (r : rx) (s : text) : res (list text) := match rev (find_groups r s) with g :: _ => Ok g | [] => Err IndexError end.
Fixpoint seqs (l : list rx) : rx := match l with [] => Word Ascii.eqb [] | [r] => r | r :: l => Sq r (seqs l) end.
Fixpoint ors (l : list rx) : rx := match l with [] => Word Ascii.eqb [] | [r] => r | r :: l => Or r (ors l) end.
Definition lit (s : string) : rx := Word Ascii.eqb (chars s).
(** re.IGNORECASE *)
Definition same_letter (c d : ascii) : bool := Nat.eqb (lower c) (lower d).
Definition lit_i (s : string) : rx := Word same_letter (chars s).
Definition any (c : ascii) : bool := negb (Ascii.eqb c newline).              (* . *)
Definition digits (n : nat) : rx := Times n is_digit.                         (* \d{n} *)
Definition some_digits : rx := Sq (Times 1 is_digit) (Many is_digit).         (* \d+ *)

(** pathlib.Path(granule).name of a name without a slash at the end: what follows the last slash *)
Definition base_name (f : text) : text := snd (split_name f).

(** time.py 196-199, read_GRACE_harmonics.py 309-312 *)
Definition centers : list string := ["UTCSR"; "EIGEN"; "GFZOP"; "JPLEM"; "JPLMSC"; "GRGS"; "COSTG"; "GRGS"]%string.
Definition suffixes : list string := [".gz"; ".gfc"; ".txt"]%string.
Definition grace_pattern : rx :=
  seqs [Group (Few any); lit "-2_"; Group (digits 4); Group (digits 3); lit "-"; Group (digits 4); Group (digits 3); lit "_";
        Group (Few any); lit "_"; Group (ors (map lit centers)); lit "_"; Group (Few any); lit "_"; Group some_digits; Group (Few any);
        Maybe (Group (ors (map lit suffixes))); Eos].
(** time.py 299-301 *)
Definition version_pattern : rx :=
  seqs [Group (Few any); lit "-2_"; Group (digits 4); Group (digits 3); lit "-"; Group (digits 4); Group (digits 3); lit "_";
        Group (Few any); lit "_"; Group (ors (map lit (firstn 7 centers))); lit "_"; Group (Few any); lit "_"; Group (digits 2); Group (digits 2);
        Group (Few any); Maybe (Group (ors (map lit (firstn 2 suffixes)))); Eos].
(** read_GRACE_harmonics.py 292-319, name of a file *)
Definition parse_file (f : text) : res (list text) := last_match grace_pattern (base_name f).
(** time.py 176-204 *)
Definition parse_grace_file (f : text) : res ((text * text) * (text * text)) :=
  do g <- parse_file f;
  match g with
  | [_; sy; sd; ey; ed; _; _; _; _; _; _] => Ok ((sy, sd), (ey, ed))
  | _ => Err ValueError
  end.
(** time.py 315-320: int(VER) *)
Definition parse_version (f : text) : res Z :=
  do g <- last_match version_pattern (base_name f);
  match g with
  | [_; _; _; _; _; _; _; _; _; ver; _; _] => py_int ver
  | _ => Err ValueError
  end.

(** time.py 279-325 on texts: dates are compared as pairs of pairs of texts (code points) *)
Fixpoint text_ltb (a b : text) : bool :=
  match a, b with
  | [], [] => false
  | [], _ => true
  | _, [] => false
  | c :: a, d :: b => (nat_of_ascii c <? nat_of_ascii d) || ((nat_of_ascii c =? nat_of_ascii d) && text_ltb a b)
  end.
Definition tdate : Type := ((text * text) * (text * text))%type.
Definition tpair_ltb (a b : text * text) : bool := text_ltb (fst a) (fst b) || (str_eqb (fst a) (fst b) && text_ltb (snd a) (snd b)).
Definition tpair_eqb (a b : text * text) : bool := str_eqb (fst a) (fst b) && str_eqb (snd a) (snd b).
Definition tdate_ltb (a b : tdate) : bool := tpair_ltb (fst a) (fst b) || (tpair_eqb (fst a) (fst b) && tpair_ltb (snd a) (snd b)).
Definition tdate_eqb (a b : tdate) : bool := tpair_eqb (fst a) (fst b) && tpair_eqb (snd a) (snd b).
(** sorted(set(...)) *)
Fixpoint insert_date (d : tdate) (l : list tdate) : list tdate :=
  match l with
  | [] => [d]
  | x :: t => if tdate_ltb d x then d :: x :: t else if tdate_eqb d x then x :: t else x :: insert_date d t
  end.
Definition sorted_dates (l : list tdate) : list tdate := fold_right insert_date [] l.
(** 304-323 for one date; versions.index(max(versions)) is the first largest *)
Definition pick_date (gs : list (tdate * text)) (d : tdate) : res text :=
  match map snd (filter (fun x => tdate_eqb (fst x) d) gs) with
  | [] => Err OtherExn
  | [g] => Ok g
  | g :: t => do vg <- parse_version g; do vs <- mapM (fun f => do v <- parse_version f; Ok (f, v)) t; Ok (first_max (g, vg) vs)
  end.
Definition reduce_names (granules : list text) : res (list text) :=
  do ds <- mapM parse_grace_file granules; mapM (pick_date (combine ds granules)) (sorted_dates ds).

(** time.py 207-277.  [parse]: dateutil (83-104), None for a text it rejects (then parse_date_string looks for units and fails on a text of one word) *)
Definition itsg_products : list string := ["atmosphere"; "dealiasing"; "oceanBottomPressure"; "ocean"; "Grace2014"; "Grace2016"; "Grace2018"; "Grace_operational"]%string.
Definition dash_or_bar (c : ascii) : bool := (Ascii.eqb c "-" || Ascii.eqb c "_")%char%bool.
Definition itsg_pattern : rx :=
  seqs [Group (ors [Sq (lit_i "AOD1B_RL") some_digits; lit_i "model"; lit_i "ITSG"]); Times 1 dash_or_bar; Group (ors (map lit_i itsg_products));
        Maybe (Group (Sq (lit_i "_n") some_digits)); lit_i "_"; Group some_digits; lit_i "-"; Group some_digits; Group (lit_i ".gfc")].
Definition swarm_pattern : rx :=
  seqs [Group (lit_i "SW"); lit_i "_"; Group (Few any); lit_i "_"; Group (lit_i "EGF_SHA_2"); lit_i "__"; Group (Few any); lit_i "_"; Group (Few any); lit_i "_";
        Group (Few any); Group (ors [lit_i ".gfc"; lit_i ".ZIP"])].
Definition swarm_model_pattern : rx :=
  seqs [Group (ors [lit_i "GAA"; lit_i "GAB"; lit_i "GAC"; lit_i "GAD"]); lit_i "_Swarm_"; Group some_digits; lit_i "_"; Group (digits 2); lit_i "_"; Group (digits 4);
        Group (ors [lit_i ".gfc"; lit_i ".ZIP"])].
(** 250-253, 272-275; calendar_days gives None (unpacked as an error when indexed) for no year (C01), here a TypeError *)
Definition month_dates (year month : text) : res (stamp * stamp) :=
  do y <- py_int year; do m <- py_int month;
  match calendar_days y with
  | Some dpm => do n <- py_get dpm (m - 1)%Z; Ok (mkstamp y m 1 0 0 0, mkstamp y m (inject_Z n) 23 59 59)
  | None => Err TypeError
  end.
(** Python's str.split(None, 2) of a text without blanks has one piece: ValueError (151-154) *)
Definition one_date (parse : text -> option stamp) (s : text) : res stamp := match parse s with Some d => Ok d | None => Err ValueError end.
Definition parse_gfc_file (parse : text -> option stamp) (f : text) (proc dset : string) : res (stamp * stamp) :=
  if String.eqb proc "GRAZ" then
    do g <- last_match itsg_pattern (base_name f);
    match g with [_; _; _; year; month; _] => month_dates year month | _ => Err ValueError end
  else if String.eqb proc "Swarm" then
    if String.eqb dset "GSM" then
      do g <- last_match swarm_pattern (base_name f);
      match g with [_; _; _; a; b; _; _] => do x <- one_date parse a; do y <- one_date parse b; Ok (x, y) | _ => Err ValueError end
    else
      do g <- last_match swarm_model_pattern (base_name f);
      match g with [_; _; month; year; _] => month_dates year month | _ => Err ValueError end
  else Err UnboundLocalError.
