(** Model of the text layer: the regular expressions that take the numbers out of the lines of text files, the conversion of the
    pieces to numbers, and the printing of numbers by str.format.  A line is the list of its characters (ASCII; \d of Python also
    accepts other Unicode digits, which no data file has).  Numbers are exact reals: the rounding of np.float64 is not modelled. *)
From Coq Require Import Reals Ascii String.
From Verif Require Import Base Arr DestripeModel UtilModel HarmModel.
Close Scope Z_scope.
Open Scope list_scope.

(** ** Python's re on the fragment used by these patterns: character classes, [x]*, [x]+, (...)?, sequence and alternation.
    [matches r s]: the ways in which r matches a prefix of s, in the order in which the backtracking matcher tries them
    (greedy repetition first, first alternative first), each as (matched text, rest) *)
Inductive regex :=
| RChar (p : ascii -> bool)
| RStar (p : ascii -> bool)
| RSeq (a b : regex)
| RAlt (a b : regex)
| ROpt (a : regex).
Fixpoint star (p : ascii -> bool) (s : list ascii) : list (list ascii * list ascii) :=
  match s with
  | c :: t => if p c then map (fun x => (c :: fst x, snd x)) (star p t) ++ [([], s)] else [([], s)]
  | [] => [([], [])]
  end.
Fixpoint matches (r : regex) (s : list ascii) : list (list ascii * list ascii) :=
  match r with
  | RChar p => match s with c :: t => if p c then [([c], t)] else [] | [] => [] end
  | RStar p => star p s
  | RSeq a b => flat_map (fun x => map (fun y => (fst x ++ fst y, snd y)) (matches b (snd x))) (matches a s)
  | RAlt a b => matches a s ++ matches b s
  | ROpt a => matches a s ++ [([], s)]
  end.
Definition RPlus (p : ascii -> bool) : regex := RSeq (RChar p) (RStar p).
Definition RLit (s : string) : regex := fold_right (fun c r => RSeq (RChar (Ascii.eqb c)) r) (RStar (fun _ => false)) (chars s).
(** re.match: the first way, if any *)
Definition re_match (r : regex) (s : list ascii) : option (list ascii * list ascii) := hd_error (matches r s).
(** re.findall of a pattern without groups that does not match the empty text: leftmost matches, from left to right; [fuel] bounds the
    number of positions looked at *)
Fixpoint findall_at (fuel : nat) (r : regex) (s : list ascii) : list (list ascii) :=
  match fuel with
  | 0 => []
  | S n => match re_match r s with
           | Some (t, rest) => t :: findall_at n r rest
           | None => match s with [] => [] | _ :: s' => findall_at n r s' end
           end
  end.
Definition findall (r : regex) (s : list ascii) : list (list ascii) := findall_at (S (List.length s)) r s.

(** ** the character classes and the patterns *)
Definition is_digit (c : ascii) : bool := let n := nat_of_ascii c in ((48 <=? n) && (n <=? 57))%nat%bool.       (* \d *)
Definition is_sign (c : ascii) : bool := (Ascii.eqb c "-" || Ascii.eqb c "+")%char%bool.                          (* [-+] *)
Definition is_point (c : ascii) : bool := Ascii.eqb c "."%char.                                                  (* \. *)
Definition is_exp (fortran : bool) (c : ascii) : bool :=                                                         (* [EeD] or [Ee] *)
  (Ascii.eqb c "E" || Ascii.eqb c "e" || (fortran && Ascii.eqb c "D"))%char%bool.
(** (?:[EeD][+-]?\d+)? *)
Definition exponent (fortran : bool) : regex := ROpt (RSeq (RChar (is_exp fortran)) (RSeq (ROpt (RChar is_sign)) (RPlus is_digit))).
(** [-+]?(?:(?:\d*\.\d+)|(?:\d+\.?))(?:[EeD][+-]?\d+)?: harmonics.py 260, spatial.py 252 and 1865 (fortran); with [Ee]:
    geocenter.py 359, 482, 572, 678, read_GIA_model.py 355, tools.py 943 *)
Definition number_pattern (fortran : bool) : regex :=
  RSeq (ROpt (RChar is_sign))
 (RSeq (RAlt (RSeq (RStar is_digit) (RSeq (RChar is_point) (RPlus is_digit)))
             (RSeq (RPlus is_digit) (ROpt (RChar is_point))))
       (exponent fortran)).
(** [-+]?(?:(?:\d*\.\d+)|(?:\d+\.?)|(?:inf))(?:[Ee][+-]?\d+)?: read_love_numbers.py 153 *)
Definition love_pattern : regex :=
  RSeq (ROpt (RChar is_sign))
 (RSeq (RAlt (RSeq (RStar is_digit) (RSeq (RChar is_point) (RPlus is_digit)))
       (RAlt (RSeq (RPlus is_digit) (ROpt (RChar is_point)))
             (RLit "inf")))
       (exponent false)).
(** [-+]?\d*\.\d*(?:[eE][-+]?\d+)?: geocenter.py 257, SLR/C20.py 214, 269, 320, 380, SLR/C30.py 154, 229, SLR/C50.py 136, SLR/CS2.py 255 *)
Definition point_pattern : regex :=
  RSeq (ROpt (RChar is_sign)) (RSeq (RStar is_digit) (RSeq (RChar is_point) (RSeq (RStar is_digit) (exponent false)))).

(** str.replace of one character by another: harmonics.py 287-288, read_love_numbers.py 178 *)
Definition replace (a b : ascii) (s : list ascii) : list ascii := map (fun c => if Ascii.eqb c a then b else c) s.

(** ** text to numbers *)
Definition digit_value (c : ascii) : Z := (Z.of_nat (nat_of_ascii c) - 48)%Z.
Definition digits_value (s : list ascii) : Z := fold_left (fun a c => (10 * a + digit_value c)%Z) s 0%Z.
Fixpoint take_digits (s : list ascii) : list ascii * list ascii :=
  match s with
  | c :: t => if is_digit c then let '(d, r) := take_digits t in (c :: d, r) else ([], s)
  | [] => ([], [])
  end.
Definition take_sign (s : list ascii) : bool * list ascii :=      (* true: minus *)
  match s with c :: t => if is_sign c then (Ascii.eqb c "-"%char, t) else (false, s) | [] => (false, []) end.
Definition signed (neg : bool) (x : Z) : Z := if neg then (- x)%Z else x.
(** int(text) of the tokens: a sign and digits (blanks and underscores, which no token has, are not modelled) *)
Definition py_int (s : list ascii) : res Z :=
  let '(neg, s) := take_sign s in
  match take_digits s with
  | ((_ :: _) as d, []) => Ok (signed neg (digits_value d))
  | _ => Err ValueError
  end.
(** np.float64(text) of the tokens: a sign, digits with at most one point and at least one digit, an exponent with e or E; an infinite
    value is not a real number and ends the modelled run *)
Definition scale (z : Z) (e : Z) : R := (IZR z * powerRZ 10 e)%R.
Definition py_float (s : list ascii) : res R :=
  let '(neg, s) := take_sign s in
  if str_eqb s (chars "inf") then Err OtherExn else
  let '(a, s) := take_digits s in
  let '(b, s) := match s with c :: t => if is_point c then take_digits t else ([], s) | [] => ([], []) end in
  match a, b with
  | [], [] => Err ValueError
  | _, _ =>
    let n := signed neg (digits_value (a ++ b)) in
    let p := (- Z.of_nat (List.length b))%Z in
    match s with
    | [] => Ok (scale n p)
    | c :: t =>
        if is_exp false c then
          let '(eneg, t) := take_sign t in
          match take_digits t with
          | ((_ :: _) as d, []) => Ok (scale n (p + signed eneg (digits_value d)))
          | _ => Err ValueError
          end
        else Err ValueError
    end
  end.

(** ** numbers to text: str.format *)
Definition digit_char (n : Z) : ascii := ascii_of_nat (Z.to_nat (48 + n)).
(** the last p digits of n, with leading zeros *)
Fixpoint fixed_digits (p : nat) (n : Z) : list ascii :=
  match p with 0 => [] | S q => fixed_digits q (n / 10) ++ [digit_char (n mod 10)] end.
(** number of decimal digits of n, at least one *)
Fixpoint width_of (fuel : nat) (n : Z) : nat := match fuel with 0 => 1 | S f => if (n <? 10)%Z then 1 else S (width_of f (n / 10)) end.
Definition int_digits (n : Z) : list ascii := fixed_digits (width_of (Z.to_nat n) n) n.
(** {:5d} and such: blanks on the left up to the width *)
Definition pad (w : nat) (s : list ascii) : list ascii := repeat " "%char (w - List.length s) ++ s.
Definition sign_f (x : R) : list ascii := if Rlt_dec x 0 then ["-"%char] else [].
Definition sign_e (x : R) : list ascii := if Rlt_dec x 0 then ["-"%char] else ["+"%char].
Definition fmt_d (w : nat) (n : nat) : list ascii := pad w (int_digits (Z.of_nat n)).
(** {:w.pf} *)
Definition fmt_f (w p : nat) (x : R) : list ascii :=
  let n := around (Rabs x * 10 ^ p) in
  pad w (sign_f x ++ int_digits (n / 10 ^ Z.of_nat p) ++ "."%char :: fixed_digits p n).
(** {:+w.pe}: one digit, the point, p digits, and an exponent of at least two digits.  [decade x] is the exponent of the leading digit *)
Definition decade (x : R) : Z := Int_part (ln (Rabs x) / ln 10).
Definition fmt_e (w p : nat) (x : R) : list ascii :=
  let '(n, e) := if Req_EM_T x 0 then (0%Z, 0%Z) else
                 let n := around (Rabs x * powerRZ 10 (Z.of_nat p - decade x)) in
                 if (n =? 10 ^ (Z.of_nat p + 1))%Z then ((10 ^ Z.of_nat p)%Z, (decade x + 1)%Z) else (n, decade x) in
  pad w (sign_e x ++ int_digits (n / 10 ^ Z.of_nat p) ++ "."%char :: fixed_digits p n ++ "e"%char ::
         (if (e <? 0)%Z then "-"%char else "+"%char) :: (if (Z.abs e <? 10)%Z then "0"%char :: int_digits (Z.abs e) else int_digits (Z.abs e))).

(** ** harmonics.to_ascii, harmonics.py 750-779, down to the characters: the fields of a line are separated by a blank *)
Definition blank : ascii := " "%char.
Definition text_line (date : bool) (l m : nat) (c s t : R) : list ascii :=
  fmt_d 5 l ++ blank :: fmt_d 5 m ++ blank :: fmt_e 21 12 c ++ blank :: fmt_e 21 12 s ++ (if date then blank :: fmt_f 10 4 t else []).
Definition to_text (date : bool) (h : harm) : res (list (list ascii)) :=
  match depth (clm h) with
  | Some _ => Err TypeError                       (* formatting an array *)
  | None =>
    let write t := map (fun p => text_line date (fst p) (snd p) (get (clm h) (fst p) (snd p) 0) (get (slm h) (fst p) (snd p) 0) t) (lm_loop (lmax h) (mmax h)) in
    if date then match time h with TScalar t => Ok (write t) | _ => Err TypeError end else Ok (write 0%R)
  end.
(** harmonics.from_ascii, 215-292, on the lines of the file.  Lines 266-268: unpacking and np.int64 of the first two numbers; a negative
    degree or order (which wraps around in the assignment) ends the modelled run *)
Definition as_index (t : list ascii) : res nat := do z <- py_int t; if (z <? 0)%Z then Err OtherExn else Ok (Z.to_nat z).
Definition scan_line (s : list ascii) : res (nat * nat * list ascii * list ascii * list (list ascii)) :=
  match findall (number_pattern true) s with
  | l :: m :: c :: s :: aux => do l <- as_index l; do m <- as_index m; Ok (l, m, c, s, aux)
  | _ => Err ValueError                           (* not enough values to unpack *)
  end.
(** 283-288: the second pass.  Line 276 reads the time without the replacement of the D *)
Definition fortran_float (t : list ascii) : res R := py_float (replace "D"%char "E"%char t).
Definition value_line (x : nat * nat * list ascii * list ascii * list (list ascii)) : res line :=
  let '(l, m, c, s, aux) := x in do c <- fortran_float c; do s <- fortran_float s; Ok (mkline l m c s []).
Definition from_text (grace : R -> Z) (date : bool) (file : list (list ascii)) : res harm :=
  do rows <- mapM scan_line file;
  do aux <- (if date then
               match rev rows with
               | [] => Err UnboundLocalError
               | (_, _, _, _, aux) :: _ => match aux with [] => Err IndexError | t :: _ => do t <- py_float t; Ok [t] end
               end
             else Ok []);
  do ls <- mapM value_line rows;
  from_ascii grace date (map (fun x => mkline (ln_l x) (ln_m x) (ln_c x) (ln_s x) aux) ls).
