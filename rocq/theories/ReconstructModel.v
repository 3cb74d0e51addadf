(** Model of the text files written by scripts/calc_mascon.py and of scripts/mascon_reconstruct.py, which reads them back, and of the use of its
    output in a second run of calc_mascon.py (option RECONSTRUCT).
    Simplifications: exact real arithmetic except for the decimal rounding of the text files; characters are ASCII; a directory is a map from file names to contents;
    the options that only enter the file names (data set, GIA title, smoothing radius, ...) are the strings inserted in the names;
    coefficient files as in MasconFitModel (functions of degree and order). *)
From Coq Require Import Reals Lra Lia String Ascii List ZifyBool ZifyNat.
From Verif Require Import Base UnitsModel LoveModel GaussModel SummationModel GenModel DestripeModel LinAlg Lstsq MasconFitModel.
Import ListNotations.
Close Scope Z_scope.
Open Scope R_scope.

(** calc_mascon.py 514 (mascon_reconstruct.py 237): re.sub('_L(\d+)(M\d+)?', '', s). State of the scanner: nothing pending; after '_'; after '_L';
    inside the digits of the degree; after the M; inside the digits of the order *)
Inductive scan := Snone | Sbar | SbarL | Sdeg | SdegM | Sord.
Definition digit (c : ascii) : bool := let n := nat_of_ascii c in ((48 <=? n) && (n <=? 57))%nat%bool.
Definition plain_step (c : ascii) (k : scan -> string) : string := if (c =? "_")%char then k Sbar else String c (k Snone).
Fixpoint scrub_at (st : scan) (s : string) {struct s} : string :=
  match s with
  | EmptyString => match st with Sbar => "_" | SbarL => "_L" | SdegM => "M" | _ => "" end%string
  | String c t =>
      match st with
      | Snone => plain_step c (fun st' => scrub_at st' t)
      | Sbar => if (c =? "L")%char then scrub_at SbarL t else String "_" (plain_step c (fun st' => scrub_at st' t))
      | SbarL => if digit c then scrub_at Sdeg t else String "_" (String "L" (plain_step c (fun st' => scrub_at st' t)))
      | Sdeg => if digit c then scrub_at Sdeg t else if (c =? "M")%char then scrub_at SdegM t else plain_step c (fun st' => scrub_at st' t)
      | SdegM => if digit c then scrub_at Sord t else String "M" (plain_step c (fun st' => scrub_at st' t))
      | Sord => if digit c then scrub_at Sord t else plain_step c (fun st' => scrub_at st' t)
      end
  end.
Definition mascon_name (stem : string) : string := scrub_at Snone (upper stem).

(** a row of the time series: month, date, mass [Gt], error [Gt], area [km^2] *)
Definition line5 : Type := Z * R * R * R * R.
Definition l_month (l : line5) : Z := fst (fst (fst (fst l))).
Definition l_time (l : line5) : R := snd (fst (fst (fst l))).
Definition l_mass (l : line5) : R := snd (fst (fst l)).
(** the number read back from a number printed with d decimals *)
Definition dec (d : nat) (x : R) : R := IZR (around (x * 10 ^ d)) / 10 ^ d.
Definition directory : Type := string -> option (list line5).
Definition save (fs : directory) (f : string) (c : list line5) : directory := fun g => if (g =? f)%string then Some c else fs g.
(** the parts of the file name before and after the degree: dataset, GIA, atmosphere and ocean strings; order, smoothing and filter strings *)
Definition series_file (name opts : string) : string := (name ++ opts ++ ".txt")%string.

(** calc_mascon.py 683-716: one text file per mascon, written in the order of the mascons. [stems]: file names of the mascons without directory and suffix;
    [construct_str]: '' or '_LEAKAGE' (lines 475-479) *)
Definition series (mass : nat -> nat -> R) (err area : nat -> R) (months : list Z) (times : list R) (k : nat) : list line5 :=
  map (fun t => (nth t months 0%Z, dec 4 (nth t times 0), dec 10 (mass k t), dec 10 (err k), dec 5 (area k))) (seq 0 (List.length months)).
Definition write_series (stems : list string) (opts construct_str : string) (mass : nat -> nat -> R) (err area : nat -> R) (months : list Z) (times : list R) (fs : directory) : directory :=
  fold_left (fun d k => save d (series_file (mascon_name (nth k stems ""%string)) (opts ++ construct_str)%string) (series mass err area months times k)) (seq 0 (List.length stems)) fs.

(** a reconstructed field: months, dates, coefficients of each date *)
Record recon := mkrecon { r_months : list Z; r_times : list R; r_coefs : nat -> coefs }.
(** mascon_reconstruct.py 211-252: one mascon. np.loadtxt gives a one-dimensional array for a file of one line (or none): IndexError at [:,2];
    a total area of zero gives infinities (numpy), here division by zero in the reals *)
Definition reconstruct_one (LMAX MM : nat) (ocean : option coefs) (Y : coefs) (rows : list line5) : res recon :=
  let area := total_area LMAX Y in
  let Y' := mascon_coefs LMAX MM ocean Y in
  if (List.length rows <=? 1)%nat then Err IndexError
  else let sigma := map (fun r => 10 ^ 15 * l_mass r / area) rows in
  Ok (mkrecon (map l_month rows) (map l_time rows)
        (fun t cs l m => if ((l <=? LMAX) && (m <=? MM))%nat then nth t sigma 0 * Y' cs l m else 0)).
(** mascon_reconstruct.py 208-270: the mascons in the order of the index; the index of the outputs is written in that order. The outputs are the files
    name + options + months; an output of the same name is overwritten *)
Definition outputs : Type := string -> option recon.
Definition put_out (o : outputs) (f : string) (r : recon) : outputs := fun g => if (g =? f)%string then Some r else o g.
Definition out_file (name opts window : string) : string := (name ++ opts ++ "_" ++ window)%string.
Fixpoint reconstruct_loop (LMAX MM : nat) (ocean : option coefs) (opts window : string) (fs : directory) (todo : list (string * coefs)) (acc : outputs * list string) : res (outputs * list string) :=
  match todo with
  | [] => Ok acc
  | (stem, Y) :: rest =>
      let name := mascon_name stem in
      match fs (series_file name opts) with
      | None => Err FileNotFound
      | Some rows => do r <- reconstruct_one LMAX MM ocean Y rows;
          reconstruct_loop LMAX MM ocean opts window fs rest (put_out (fst acc) (out_file name opts window) r, (snd acc ++ [out_file name opts window])%list)
      end
  end.
Definition mascon_reconstruct (LMAX : nat) (MMAX : option nat) (ocean : option coefs) (opts window : string) (fs : directory) (stems : list string) (files : list coefs) (o : outputs) : res (outputs * list string) :=
  let MM := match MMAX with Some (S k) => S k | _ => LMAX end in
  reconstruct_loop LMAX MM ocean opts window fs (combine stems files) (o, []).

(** calc_mascon.py 455-473: the sum of the reconstructed fields listed in an index, n dates in the run; the arrays are added by position (harmonics.add, modelled in
    HarmModel: a different number of dates fails) and the months of the files are not looked at. Without destriping. *)
Fixpoint construct_sum (LMAX MM n : nat) (o : outputs) (index : list string) : res (nat -> coefs) :=
  match index with
  | [] => Ok (fun _ _ _ _ => 0)
  | f :: rest =>
      match o f with
      | None => Err FileNotFound
      | Some r => if negb (List.length (r_months r) =? n)%nat then Err ValueError
                  else do s <- construct_sum LMAX MM n o rest; Ok (fun t cs l m => (if ((l <=? LMAX) && (m <=? MM))%nat then r_coefs r t cs l m else 0) + s t cs l m)
      end
  end.
