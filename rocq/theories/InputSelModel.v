(** Model of the choice of the auxiliary files in grace_input_months.py (lines 401-672): which file is read for every replaced coefficient, with which options, the title (suffix of output names) and the attributes.
    The values read and how they replace coefficients: GraceModel.v (C13, C81-C85).  [fails] gives the exception that a reader raises on a file, if any (the readers raise FileNotFoundError for a missing file).
    Folders and names are texts without separators; [InBase] are files of base_dir, [User] a pathlib.Path of the user.  The attribute geocenter etc. are kept in the order of assignment. *)
From Coq Require Import List Bool String.
From Verif Require Import Base.
Import ListNotations.
Close Scope Z_scope.
Open Scope string_scope.

Inductive path := InBase (folders : list string) (name : string) | User (parent name : string).
Definition name_of (p : path) : string := match p with InBase _ n => n | User _ n => n end.
(** gravity_toolkit.SLR.C20, CS2 (ORDER and DATE of the GSFC file; otherwise none), C30, C40, C50 (true: with the dates of the GRACE files), geocenter().from_tellus(JPL), from_SLR(release), from_UCI, from_swenson, from_gravis *)
Inductive reader := RdC20 | RdCS2 (order : option nat) | RdC30 | RdC40 (dates : bool) | RdC50 (dates : bool)
  | RdTellus (jpl : bool) | RdSLR (release : string) | RdUCI | RdSwenson | RdGravis.
(** DEG1_FILE: None, a pathlib.Path or a str *)
Inductive user_file := NoFile | APath (parent name : string) | AStr (s : string).
Record sel := mksel { proc : string; drel : string; slr_c20 : string; slr_21 : string; slr_22 : string; slr_c30 : string; slr_c40 : string; slr_c50 : string;
                      deg1 : string; deg1_file : user_file; atm : bool; pole : bool }.
Record state := mkstate { reads : list (reader * path); flags : list string; attrs : list (string * (string * string)) }.
(** one branch: read the file, append the flag, set the attribute (lines 414-420 and the like) *)
Definition branch (fails : reader -> path -> option exn) (r : reader) (p : path) (flag key label : string) (s : state) : res state :=
  match fails r p with
  | Some e => Err e
  | None => Ok (mkstate (reads s ++ [(r, p)])%list (flags s ++ [flag])%list (attrs s ++ [(key, (label, name_of p))])%list)
  end.
Definition base (n : string) : path := InBase [] n.
Definition is (a b : string) : bool := String.eqb a b.
(** lines 407-436 *)
Definition sel_c20 (fails : reader -> path -> option exn) (a : sel) (s : state) : res state :=
  if is (slr_c20 a) "CSR" then
    do p <- (if is (drel a) "RL04" then Ok (base "TN-05_C20_SLR.txt") else if is (drel a) "RL05" then Ok (base "TN-07_C20_SLR.txt")
             else if is (drel a) "RL06" then Ok (base "C20_RL06.txt") else Err UnboundLocalError);
    branch fails RdC20 p "_wCSR_C20" "SLR C20" "CSR" s
  else if is (slr_c20 a) "GFZ" then branch fails RdC20 (base ("GFZ_" ++ drel a ++ "_C20_SLR.dat")) "_wGFZ_C20" "SLR C20" "GFZ" s
  else if is (slr_c20 a) "GSFC" then branch fails RdC20 (base "TN-14_C30_C20_GSFC_SLR.txt") "_wGSFC_C20" "SLR C20" "GSFC" s
  else Ok s.
(** lines 439-465 *)
Definition sel_21 (fails : reader -> path -> option exn) (a : sel) (s : state) : res state :=
  if is (slr_21 a) "CSR" then branch fails (RdCS2 None) (base ("C21_S21_" ++ drel a ++ ".txt")) "_wCSR_21" "SLR 21" "CSR" s
  else if is (slr_21 a) "GFZ" then branch fails (RdCS2 None) (base "GRAVIS-2B_GFZOP_GRACE+SLR_LOW_DEGREES_0003.dat") "_wGFZ_21" "SLR 21" "GFZ GravIS" s
  else if is (slr_21 a) "GSFC" then branch fails (RdCS2 (Some 1)) (base "gsfc_slr_5x5c61s61.txt") "_wGSFC_21" "SLR 21" "GSFC" s
  else Ok s.
(** lines 468-484 *)
Definition sel_22 (fails : reader -> path -> option exn) (a : sel) (s : state) : res state :=
  if is (slr_22 a) "CSR" then branch fails (RdCS2 None) (base ("C22_S22_" ++ drel a ++ ".txt")) "_wCSR_22" "SLR 22" "CSR" s
  else if is (slr_22 a) "GSFC" then branch fails (RdCS2 (Some 2)) (base "gsfc_slr_5x5c61s61.txt") "_wGSFC_22" "SLR 22" "GSFC" s
  else Ok s.
(** lines 487-519; the key of the LARES branch is SLR_C30 (line 502) *)
Definition sel_c30 (fails : reader -> path -> option exn) (a : sel) (s : state) : res state :=
  if is (slr_c30 a) "CSR" then branch fails RdC30 (base "CSR_Monthly_5x5_Gravity_Harmonics.txt") "_wCSR_C30" "SLR C30" "CSR" s
  else if is (slr_c30 a) "LARES" then branch fails RdC30 (base "C30_LARES_filtered.txt") "_wLARES_C30" "SLR_C30" "CSR LARES" s
  else if is (slr_c30 a) "GFZ" then branch fails RdC30 (base "GRAVIS-2B_GFZOP_GRACE+SLR_LOW_DEGREES_0003.dat") "_wGFZ_C30" "SLR C30" "GFZ GravIS" s
  else if is (slr_c30 a) "GSFC" then branch fails RdC30 (base "TN-14_C30_C20_GSFC_SLR.txt") "_wGSFC_C30" "SLR C30" "GSFC" s
  else Ok s.
(** lines 522-546 *)
Definition sel_c40 (fails : reader -> path -> option exn) (a : sel) (s : state) : res state :=
  if is (slr_c40 a) "CSR" then branch fails (RdC40 false) (base "CSR_Monthly_5x5_Gravity_Harmonics.txt") "_wCSR_C40" "SLR C40" "CSR" s
  else if is (slr_c40 a) "LARES" then branch fails (RdC40 false) (base "C40_LARES_filtered.txt") "_wLARES_C40" "SLR C40" "CSR LARES" s
  else if is (slr_c40 a) "GSFC" then branch fails (RdC40 true) (base "gsfc_slr_5x5c61s61.txt") "_wGSFC_C40" "SLR C40" "GSFC" s
  else Ok s.
(** lines 549-574 *)
Definition sel_c50 (fails : reader -> path -> option exn) (a : sel) (s : state) : res state :=
  if is (slr_c50 a) "CSR" then branch fails (RdC50 false) (base "CSR_Monthly_5x5_Gravity_Harmonics.txt") "_wCSR_C50" "SLR C50" "CSR" s
  else if is (slr_c50 a) "LARES" then branch fails (RdC50 false) (base "C50_LARES_filtered.txt") "_wLARES_C50" "SLR C50" "CSR LARES" s
  else if is (slr_c50 a) "GSFC" then branch fails (RdC50 true) (base "gsfc_slr_5x5c61s61.txt") "_wGSFC_C50" "SLR C50" "GSFC" s
  else Ok s.
(** kwargs.get('DEG1_FILE') or default_geocenter; the attribute needs DEG1_file.name, which a str does not have (lines 596, 638, 649, 661).
    A str is read like the path of the same text ([fails] of User "" s). *)
Definition geocenter_branch (fails : reader -> path -> option exn) (r : reader) (f : user_file) (default : string) (flag label : string) (s : state) : res state :=
  let d := InBase ["geocenter"] default in
  match f with
  | NoFile => branch fails r d flag "geocenter" label s
  | APath q n => branch fails r (User q n) flag "geocenter" label s
  | AStr "" => branch fails r d flag "geocenter" label s
  | AStr t => match fails r (User "" t) with Some e => Err e | None => Err AttributeError end
  end.
(** lines 578-661 *)
Definition sel_deg1 (fails : reader -> path -> option exn) (a : sel) (s : state) : res state :=
  let flag := "_w" ++ deg1 a ++ "_DEG1" in
  if is (deg1 a) "Tellus" then
    if (is (drel a) "RL04" || is (drel a) "RL05")%bool
    then geocenter_branch fails (RdTellus false) (deg1_file a) ("deg1_coef_" ++ drel a ++ ".txt") flag "JPL Tellus" s
    else geocenter_branch fails (RdTellus true) (deg1_file a) ("TN-13_GEOC_" ++ proc a ++ "_" ++ drel a ++ ".txt") flag "JPL Tellus" s
  else if is (deg1 a) "SLR" then branch fails (RdSLR (drel a)) (InBase ["geocenter"] "gct2est.220_5s") flag "geocenter" "CSR SLR" s
  else if (is (deg1 a) "SLF" || is (deg1 a) "UCI")%bool
  then geocenter_branch fails RdUCI (deg1_file a) (proc a ++ "_" ++ drel a ++ "_MPIOM_SLF_iter.txt") flag "UCI" s
  else if is (deg1 a) "Swenson" then geocenter_branch fails RdSwenson (deg1_file a) ("gad_gsm." ++ drel a ++ ".txt") flag "Swenson" s
  else if is (deg1 a) "GFZ" then geocenter_branch fails RdGravis (deg1_file a) "GRAVIS-2B_GFZOP_GEOCENTER_0003.dat" flag "GFZ GravIS" s
  else Ok s.
(** lines 664-670; these two attributes are single texts, here with an empty second part *)
Definition sel_flags (a : sel) (s : state) : state :=
  let s := if atm a then mkstate (reads s) (flags s ++ ["_wATM"])%list (attrs s ++ [("atmospheric_correction", ("Fagiolini et al. (2015)", ""))])%list else s in
  if pole a then mkstate (reads s) (flags s ++ ["_wPT"])%list (attrs s ++ [("pole_tide_correction", ("Wahr et al. (2015)", ""))])%list else s.
(** lines 404-672 *)
Definition selection (fails : reader -> path -> option exn) (a : sel) : res state :=
  do s <- sel_c20 fails a (mkstate [] [] []);
  do s <- sel_21 fails a s;
  do s <- sel_22 fails a s;
  do s <- sel_c30 fails a s;
  do s <- sel_c40 fails a s;
  do s <- sel_c50 fails a s;
  do s <- sel_deg1 fails a s;
  Ok (sel_flags a s).
(** ''.join(FLAGS), line 672 *)
Definition title (s : state) : string := fold_right append "" (flags s).
