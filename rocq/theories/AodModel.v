(** Model of scripts/aod1b_geocenter.py and scripts/aod1b_oblateness.py: series of the degree 1 displacements and of C20 from the monthly archives of the
    dealiasing product (AOD1B).  Lines of a member are given by what the regular expressions find (DealiasModel.aline).  Log messages, header lines of the output
    and permissions are not modelled. *)
From Coq Require Import QArith Reals String Ascii.
From Verif Require Import Base HarmModel GeoModel DealiasModel.
Open Scope Z_scope.

(** aod1b_geocenter.py 189-199: a member of an archive: day of its name (None: the name does not match) and lines *)
Record tmember := mktmember { t_day : option Z; t_lines : list aline }.
(** 147-153: an archive: year and month of its name, modification time, members *)
Record tarchive := mktarchive { ta_month : Z * Z; ta_mtime : R; ta_members : list tmember }.
(** 240-241: a line of the output: date, hour, values *)
Definition oline : Set := (Z * Z * Z) * Z * list Q.

(** 201-204, 221-232: the last line of a degree and order, 0 without one *)
Definition put_coef (l m : nat) (old : R * R) (x : nat * nat * R * R) : R * R :=
  let '(l1, m1, c, s) := x in if (Nat.eqb l1 l && Nat.eqb m1 m)%bool then (c, s) else old.
Definition coef_of (l m : nat) (cs : list (nat * nat * R * R)) : R * R := fold_left (put_coef l m) cs (0%R, 0%R).
(** 201-204, 238-241; [rd]: printing with 8 decimals.  The arrays of a new geocenter object have all epochs of the day *)
Definition geocenter_lines (rd : R -> Q) (date : Z * Z * Z) (es : list (Z * list (nat * nat * R * R))) : list oline :=
  let g := mkgeo (Some (map (fun e => fst (coef_of 1 0 (snd e))) es)) (Some (map (fun e => fst (coef_of 1 1 (snd e))) es)) (Some (map (fun e => snd (coef_of 1 1 (snd e))) es))
             None None None None None None None None None TNone TNone default_radius in
  let g := to_cartesian 0 g in
  match gX g, gY g, gZ g with
  | Some X, Some Y, Some Z => map (fun p => let '(h, (x, (y, z))) := p in (date, h, [rd x; rd y; rd z])) (combine (map fst es) (combine X (combine Y Z)))
  | _, _, _ => []
  end.
(** aod1b_oblateness.py 201-233: the four first epochs *)
Definition oblateness_lines (rd : R -> Q) (date : Z * Z * Z) (es : list (Z * list (nat * nat * R * R))) : list oline :=
  map (fun h => (date, nth h (map fst es) 0, [rd (nth h (map (fun e => fst (coef_of 2 0 (snd e))) es) 0%R)])) (seq 0 4).

(** 189-241: the lines of the members, until one fails; without a match of the name pop raises IndexError *)
Fixpoint print_members (product : string) (nt nh : nat) (show : Z * Z * Z -> list (Z * list (nat * nat * R * R)) -> list oline) (ym : Z * Z) (ms : list tmember) : list oline * outcome :=
  match ms with
  | [] => ([], Done)
  | m :: rest =>
    match t_day m with
    | None => ([], Raised IndexError)
    | Some d =>
      match read_member product nh nt (t_lines m) with
      | Err e => ([], Raised e)
      | Ok None => ([], Endless)
      | Ok (Some es) => let '(l, o) := print_members product nt nh show ym rest in ((show (ym, d) es ++ l)%list, o)
      end
    end
  end.
(** output files by month (155): lines, modification time *)
Definition outputs : Type := Z * Z -> option (list oline * R).
Definition write (f : outputs) (k : Z * Z) (x : list oline * R) : outputs := fun n => if eq2 n k then Some x else f n.
(** 150-248: [clock]: when the file of an archive is written.  A failure ends the program; the lines printed before stay in the file *)
Fixpoint all_archives (clock : tarchive -> R) (product : string) (nt nh : nat) (show : Z * Z * Z -> list (Z * list (nat * nat * R * R)) -> list oline) (clobber : bool)
    (f : outputs) (archives : list tarchive) : outputs * outcome :=
  match archives with
  | [] => (f, Done)
  | a :: rest =>
    let test := match f (ta_month a) with Some (_, t) => if Rlt_dec t (ta_mtime a) then true else false | None => true end in
    if (test || clobber)%bool then
      let '(l, o) := print_members product nt nh show (ta_month a) (ta_members a) in
      let f1 := write f (ta_month a) (l, clock a) in
      match o with Done => all_archives clock product nt nh show clobber f1 rest | _ => (f1, o) end
    else all_archives clock product nt nh show clobber f rest
  end.
(** 116-131; DSET is one of the choices atm, ocn, glo and oba (139: otherwise KeyError when the first file is written) *)
Definition aod1b_series (clock : tarchive -> R) (DREL DSET : string) (show : Z * Z * Z -> list (Z * list (nat * nat * R * R)) -> list oline) (clobber : bool) (archives : list tarchive) (f : outputs) : outputs * outcome :=
  match release DREL with
  | Err e => (f, Raised e)
  | Ok (nt, L) => all_archives clock DSET nt (n_coefs L) show clobber f archives
  end.
Definition aod1b_geocenter (clock : tarchive -> R) (rd : R -> Q) (DREL DSET : string) (clobber : bool) (archives : list tarchive) (f : outputs) : outputs * outcome :=
  aod1b_series clock DREL DSET (geocenter_lines rd) clobber archives f.
Definition aod1b_oblateness (clock : tarchive -> R) (rd : R -> Q) (DREL DSET : string) (clobber : bool) (archives : list tarchive) (f : outputs) : outputs * outcome :=
  aod1b_series clock DREL DSET (oblateness_lines rd) clobber archives f.
(** names of the files: 155 and geocenter.py 159; [yy], [mm]: year and month with four and two digits *)
Definition written_name (DREL DSET yy mm : string) : string := ("AOD1B_" ++ DREL ++ "_" ++ DSET ++ "_" ++ yy ++ "_" ++ mm ++ ".txt")%string.
Definition read_name (release product yy mm : string) : string := ("AOD1B_" ++ release ++ " " ++ product ++ "_" ++ yy ++ "_" ++ mm ++ ".txt")%string.
