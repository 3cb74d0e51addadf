(** Model of the readers of gravity_toolkit/harmonics.py for ICGEM and GRACE level-2 files: case_insensitive_filename 165-192 (a path), from_gfc 486-537, from_SHM 539-572,
    from_file 682-724 (formats gfc and SHM, and unknown ones) and update_dimensions 1197-1204.  The state of the object is modelled also when a call fails: a call gives the
    object as it is left, and an error if one was raised.
    The contents of a file are what geoid_toolkit.read_ICGEM_harmonics (another package), read_gfc_harmonics (GfcModel.v) and read_GRACE_harmonics (GraceModel.v) return:
    arbitrary dictionaries; [F] is an array of coefficients, [S] a number, [H] a header or a text.  The names of a directory are a list of texts: the pattern match of line 186,
    re.match of the wanted name against each name ignoring case, is an arbitrary relation.  Files that are already open, and log messages, are not represented. *)
From Coq Require Import QArith List Bool String.
From Verif Require Import Base TimeModel.
Import ListNotations.
Open Scope Z_scope.

Section Readers.
Context {F S H : Type}.
(** __init__ 145-163 and the attributes the readers add *)
Record hobj := mkh { clm : option F; slm : option F; time : option Q; month : option Z; lmax : option Z; mmax : option Z; l_axis : option (list Z); m_axis : option (list Z);
  gm : option S; radius : option S; tide : option H; header : option H; file : option string }.
(** np.arange(k + 1) *)
Definition orders (k : Z) : list Z := map Z.of_nat (seq 0 (Z.to_nat (k + 1))).
(** 145-163 *)
Definition new_object (lm mm : option Z) : hobj :=
  mkh None None None None lm mm (option_map orders lm) (option_map orders mm) None None None None None.
(** 1197-1204 *)
Definition update_dimensions (o : hobj) : hobj :=
  mkh (clm o) (slm o) (time o) (month o) (lmax o) (mmax o) (option_map orders (lmax o)) (option_map orders (mmax o)) (gm o) (radius o) (tide o) (header o) (file o).
Definition set_file (o : hobj) (f : option string) : hobj :=
  mkh (clm o) (slm o) (time o) (month o) (lmax o) (mmax o) (l_axis o) (m_axis o) (gm o) (radius o) (tide o) (header o) f.
(** 165-192: the directory holds [names]; [like] is the match of line 186; f.pop() takes the last one *)
Variable like : string -> string -> bool.
Definition find_file (names : list string) (o : hobj) (f : string) : hobj * option exn :=
  if String.eqb f "" then (set_file o None, None)
  else if existsb (String.eqb f) names then (set_file o (Some f), None)
  else match rev (filter (like f) names) with
       | [] => (set_file o (Some f), Some FileNotFound)
       | g :: _ => (set_file o (Some g), None)
       end.
(** the dictionary of read_ICGEM_harmonics; [g_time] is the date that read_gfc_harmonics adds: none of the two functions gives a month *)
Record icgem := mki { g_clm : F; g_slm : F; g_max : Z; g_gm : S; g_radius : S; g_tide : H }.
(** the dictionary of read_GRACE_harmonics; files of release 6 on take the header from the text of the file: it may be missing *)
Record level2 := mks { s_clm : F; s_slm : F; s_time : Q; s_header : option H }.
(** the readers: of the stored file name (None: no name) *)
Variable read_icgem : option string -> option H -> res icgem.
Variable read_gfc : option string -> option H -> res (icgem * Q).
(** read_GRACE_harmonics up to line 179 (name, contents, dates), and the rest of it *)
Variable open_level2 : option string -> res unit.
Variable read_level2 : option string -> Z -> option Z -> res level2.
Variable names : list string.

(** 522-525: coefficients and maximum degree *)
Definition put_coefficients (o : hobj) (d : icgem) : hobj :=
  mkh (Some (g_clm d)) (Some (g_slm d)) (time o) (month o) (Some (g_max d)) (Some (g_max d)) (l_axis o) (m_axis o) (gm o) (radius o) (tide o) (header o) (file o).
(** 528 *)
Definition put_time (o : hobj) (t : Q) : hobj :=
  mkh (clm o) (slm o) (Some t) (month o) (lmax o) (mmax o) (l_axis o) (m_axis o) (gm o) (radius o) (tide o) (header o) (file o).
(** 532-534 *)
Definition put_constants (o : hobj) (d : icgem) : hobj :=
  mkh (clm o) (slm o) (time o) (month o) (lmax o) (mmax o) (l_axis o) (m_axis o) (Some (g_gm d)) (Some (g_radius d)) (Some (g_tide d)) (header o) (file o).
(** 486-537.  Line 530 asks the dictionary of a dated file for its month: there is none (KeyError) *)
Definition from_gfc (o : hobj) (f : string) (date : bool) (td : option H) : hobj * option exn :=
  match find_file names o f with
  | (o, Some e) => (o, Some e)
  | (o, None) =>
      if date then
        match read_gfc (file o) td with
        | Err e => (o, Some e)
        | Ok (d, t) => (put_time (put_coefficients o d) t, Some KeyError)
        end
      else
        match read_icgem (file o) td with
        | Err e => (o, Some e)
        | Ok d => (update_dimensions (put_constants (put_coefficients o d) d), None)
        end
  end.
(** read_GRACE_harmonics: the maximum degree is used first in line 181, None + 1 *)
Definition read_grace_harmonics (f : option string) (lm mm : option Z) : res level2 :=
  do _ <- open_level2 f;
  match lm with None => Err TypeError | Some k => read_level2 f k mm end.
(** 539-572; [mm] is the keyword MMAX *)
Definition from_SHM (o : hobj) (f : string) (mm : option Z) : hobj * option exn :=
  match find_file names o f with
  | (o, Some e) => (o, Some e)
  | (o, None) =>
      match read_grace_harmonics (file o) (lmax o) mm with
      | Err e => (o, Some e)
      | Ok d =>
          let o := mkh (Some (s_clm d)) (Some (s_slm d)) (Some (s_time d)) (Some (calendar_to_grace (s_time d) 1)) (lmax o) (mmax o) (l_axis o) (m_axis o)
                       (gm o) (radius o) (tide o) (header o) (file o) in
          match s_header d with
          | None => (o, Some KeyError)
          | Some h => (update_dimensions (mkh (clm o) (slm o) (time o) (month o) (lmax o) (mmax o) (l_axis o) (m_axis o) (gm o) (radius o) (tide o) (Some h) (file o)), None)
          end
      end
  end.
(** 682-724: the object itself, what is returned (None: nothing), or an error.  [date] is a named parameter: it is not among the keywords passed on in 721.
    Line 724 passes the maximum degree as a second positional argument, which from_SHM does not take. *)
Inductive fmt := Gfc | SHM | Unknown.
Definition from_file (o : hobj) (f : string) (k : fmt) (date : bool) (td : option H) : hobj * res (option hobj) :=
  match find_file names o f with
  | (o, Some e) => (o, Err e)
  | (o, None) =>
      match k with
      | Gfc => match from_gfc (new_object None None) f false td with (n, None) => (o, Ok (Some n)) | (_, Some e) => (o, Err e) end
      | SHM => (o, Err TypeError)
      | Unknown => (o, Ok None)
      end
  end.
End Readers.
Arguments hobj : clear implicits. Arguments icgem : clear implicits. Arguments level2 : clear implicits.
