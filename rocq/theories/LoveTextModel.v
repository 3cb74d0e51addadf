(** Model of read_love_numbers.py down to the characters of the files, of load_love_numbers and of the class love_numbers. *)
From Coq Require Import Reals Ascii String.
From Verif Require Import Base UtilModel TextModel LoveModel.
Close Scope Z_scope.
Close Scope R_scope.
Open Scope nat_scope.
Open Scope list_scope.

(** a piece found by the pattern as number (170-171, 181, 190): digits, inf, any other number.  Simplification: all pieces of a data line are converted,
    the code converts those of the columns it uses; a piece that is no finite number (-inf) ends the modelled run; a negative degree is refused here,
    in the code it writes at the end of the arrays *)
Definition love_tok (t : list ascii) : res tok :=
  if str_eqb t (chars "inf") then Ok TInf else
  match py_int t with
  | Ok z => if (z <? 0)%Z then Ok (TReal (IZR z)) else Ok (TInt (Z.to_nat z))
  | Err _ => do x <- py_float t; Ok (TReal x)
  end.
(** 178: a data line *)
Definition love_row (line : list ascii) : res (list tok) := mapM love_tok (findall love_pattern (replace "D"%char "E"%char line)).
(** 158: the degree on the last line of the file, without the replacement of the D *)
Definition love_last (COLUMNS : list string) (line : list ascii) : res tok :=
  match index_of "l" COLUMNS with
  | None => Err ValueError
  | Some i => match nth_error (findall love_pattern line) i with Some t => love_tok t | None => Err IndexError end
  end.
(** 102-236 up to the output format.  The header lines are never split (empty rows here); a file without data lines is not modelled *)
Definition read_love_text (lines : list (list ascii)) (LMAX : option nat) (HEADER : nat) (COLUMNS : list string) (REF : string) : res (list R * list R * list R) :=
  match rev lines with
  | [] => Err IndexError
  | last :: _ =>
      do t <- love_last COLUMNS last;
      do n <- match LMAX, t with
              | Some n, _ => Ok n
              | None, TInf => Ok max_degree
              | None, TInt n => Ok n
              | None, TReal _ => Err ValueError
              end;
      do rows <- mapM love_row (skipn HEADER lines);
      (* the degree of the last line is known already: 158 *)
      read_love_numbers (repeat [] (Nat.min HEADER (List.length lines)) ++ rows) (Some n) HEADER COLUMNS REF
  end.

(** class love_numbers 407-575 *)
Record love_obj := mklove { o_hl : list R; o_kl : list R; o_ll : list R; o_lmax : nat; o_l : list nat; o_reference : option string; o_model : option string; o_citation : option string; o_filename : option string }.
(** __init__ 438-451 and from_dict 453-468 *)
Definition obj_from_dict (h k l : list R) : love_obj := mklove h k l (List.length h - 1) (seq 0 (List.length h - 1 + 1)) None None None None.
Inductive love_out := LTuple (h k l : list R) | LDict (deg : list nat) (h k l : list R) | LZip (rows : list (R * R * R)) | LClass (o : love_obj) | LNone.
(** love_number_formatter 239-272: an unknown format falls through all the cases *)
Fixpoint zip3 (h k l : list R) : list (R * R * R) := match h, k, l with x :: h, y :: k, z :: l => (x, y, z) :: zip3 h k l | _, _, _ => [] end.
Definition format_love (FORMAT : string) (LMAX : nat) (v : list R * list R * list R) : love_out :=
  let '(h, k, l) := v in
  if String.eqb FORMAT "dict" then LDict (seq 0 (LMAX + 1)) h k l
  else if String.eqb FORMAT "tuple" then LTuple h k l
  else if String.eqb FORMAT "zip" then LZip (zip3 h k l)
  else if String.eqb FORMAT "class" then LClass (obj_from_dict h k l)
  else LNone.
(** transform 497-539 on the object *)
Definition obj_transform (o : love_obj) (reference : string) : res love_obj :=
  do v <- transform (o_hl o, o_kl o, o_ll o) reference;
  let '(h, k, l) := v in Ok (mklove h k l (o_lmax o) (o_l o) (Some reference) (o_model o) (o_citation o) (o_filename o)).
(** __iter__ 564-569, to_tuple 485-495, to_dict 470-483, __len__ 559-562 *)
Definition obj_iter (o : love_obj) : list (list R) := [o_hl o; o_kl o; o_ll o].
Definition obj_len (o : love_obj) : nat := List.length (o_l o).

(** load_love_numbers 341-386: file, number of header lines, columns, model, citation *)
Definition love_source (k : Z) : res (string * nat * list string * string * string) :=
  if (k =? 0)%Z then Ok ("love_numbers", 2, ["l"; "hl"; "kl"; "ll"], "PREM", "Han and Wahr (1995)")%string
  else if (k =? 1)%Z then Ok ("Load_Love2_CE.dat", 3, ["l"; "hl"; "ll"; "kl"], "PREM", "Gegout et al. (2010)")%string
  else if (k =? 2)%Z then Ok ("PREM-LLNs-truncated.dat", 1, ["l"; "hl"; "ll"; "kl"; "nl"; "nk"], "PREM", "Wang et al. (2012)")%string
  else if (k =? 3)%Z then Ok ("PREMhard-LLNs-truncated.dat", 1, ["l"; "hl"; "ll"; "kl"; "nl"; "nk"], "PREMhard", "Wang et al. (2012)")%string
  else if (k =? 4)%Z then Ok ("PREMsoft-LLNs-truncated.dat", 1, ["l"; "hl"; "ll"; "kl"; "nl"; "nk"], "PREMsoft", "Wang et al. (2012)")%string
  else Err ValueError.
(** 310-405: [data name] are the lines of the file of the data directory (275-297).  The degrees of the dictionary are 0..LMAX, as many as values *)
Definition load_love_numbers (data : string -> option (list (list ascii))) (LMAX : option nat) (LOVE_NUMBERS : Z) (REFERENCE FORMAT : string) : res love_out :=
  do src <- love_source LOVE_NUMBERS;
  let '(file, header, columns, model, citation) := src in
  match data file with
  | None => Err FileNotFound
  | Some lines =>
      do v <- read_love_text lines LMAX header columns REFERENCE;
      match format_love FORMAT (List.length (fst (fst v)) - 1) v with
      | LClass o => Ok (LClass (mklove (o_hl o) (o_kl o) (o_ll o) (o_lmax o) (o_l o) (Some REFERENCE) (Some model) (Some citation) (Some file)))
      | x => Ok x
      end
  end.
