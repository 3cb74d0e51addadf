(** Model of read_love_numbers.py.  A file is the list of its lines, each already
    split by the regular expression (lines 153-154, 178) into tokens; parsing of
    the text itself is not modelled.  Arrays are total functions of the index,
    cut to LMAX+1 entries in the result. *)
From Coq Require Import Reals Lra String Ascii.
From Verif Require Import Base UnitsModel.
Close Scope Z_scope.
Open Scope R_scope.

(** number tokens: digits only, with a decimal point or exponent, or "inf" *)
Inductive tok := TInt (n : nat) | TReal (x : R) | TInf.
(** np.float64 of a token; an infinite Love number is not representable here *)
Definition tok_float (t : tok) : res R := match t with TInt n => Ok (INR n) | TReal x => Ok x | TInf => Err OtherExn end.
Definition max_degree : nat := 1000 * 100.                     (* 99: _default_max_degree *)
(** 180-181 *)
Definition tok_degree (t : tok) : res nat := match t with TInt n => Ok n | TInf => Ok max_degree | TReal _ => Err ValueError end.
(** COLUMNS.index(name) and indexing of the token list *)
Fixpoint index_of (name : string) (cols : list string) : option nat :=
  match cols with
  | [] => None
  | c :: t => if String.eqb c name then Some 0%nat else match index_of name t with Some i => Some (S i) | None => None end
  end.
Definition column (cols : list string) (name : string) (row : list tok) : res tok :=
  match index_of name cols with
  | None => Err ValueError
  | Some i => match nth_error row i with Some t => Ok t | None => Err IndexError end
  end.
Definition columnf (cols : list string) (name : string) (row : list tok) : res R := do t <- column cols name row; tok_float t.

Record lv := mklv { hl : nat -> R; kl : nat -> R; ll : nat -> R }.
Definition lmapi (f : nat -> (nat -> R) -> R) (v : lv) : lv := mklv (fun i => f i (hl v)) (fun i => f i (kl v)) (fun i => f i (ll v)).
Definition put (a : nat -> R) (i : nat) (x : R) : nat -> R := fun j => if (j =? i)%nat then x else a j.

(** 175-191: state is the three arrays, the degrees read (not flag) and the
    variable l *)
Definition read_row (cols : list string) (LMAX : nat) (st : lv * (nat -> bool) * option nat) (row : list tok) : res (lv * (nat -> bool) * option nat) :=
  let '(v, known, _) := st in
  do t <- column cols "l" row;
  do l <- tok_degree t;
  if (l <=? LMAX)%nat then
    do h <- columnf cols "hl" row;
    do k <- columnf cols "kl" row;
    do s <- columnf cols "ll" row;
    Ok (mklv (put (hl v) l h) (put (kl v) l k) (put (ll v) l s), (fun j => if (j =? l)%nat then true else known j), Some l)
  else Ok (v, known, Some l).
Fixpoint read_rows (cols : list string) (LMAX : nat) (st : lv * (nat -> bool) * option nat) (rows : list (list tok)) : res (lv * (nat -> bool) * option nat) :=
  match rows with
  | [] => Ok st
  | r :: t => do st <- read_row cols LMAX st r; read_rows cols LMAX st t
  end.

(** np.interp over the known degrees 0..LMAX (198-202): constant outside, linear
    between the neighbouring known degrees *)
Fixpoint below (known : nat -> bool) (l : nat) : option nat :=    (* largest known degree < l *)
  match l with O => None | S k => if known k then Some k else below known k end.
Fixpoint above (known : nat -> bool) (l n : nat) : option nat :=  (* smallest known degree >= l among the next n *)
  match n with O => None | S n => if known l then Some l else above known (S l) n end.
Definition interp (known : nat -> bool) (LMAX l : nat) (f : nat -> R) : R :=
  match below known l, above known (S l) (LMAX - l) with
  | Some a, Some b => f a + (f b - f a) / (INR b - INR a) * (INR l - INR a)
  | Some a, None => f a
  | None, Some b => f b
  | None, None => 0
  end.
Definition fill_missing (known : nat -> bool) (LMAX : nat) (v : lv) : res lv :=
  if forallb known (seq 0 (LMAX + 1)) then Ok v
  else if existsb known (seq 0 (LMAX + 1)) then Ok (lmapi (fun l f => if known l then f l else interp known LMAX l f) v)
  else Err ValueError.                                             (* array of sample points is empty *)

(** 207-210, with Python's negative indices *)
Definition wrap (n : nat) (z : Z) : nat := Z.to_nat (if (z <? 0)%Z then z + Z.of_nat n else z)%Z.
Definition extend1 (LMAX i : nat) (a : nat -> R) : nat -> R :=
  put a i (2 * a (wrap (LMAX + 1) (Z.of_nat i - 1)) - a (wrap (LMAX + 1) (Z.of_nat i - 2))).
Definition extend (LMAX : nat) (v : lv) (i : nat) : lv := mklv (extend1 LMAX i (hl v)) (extend1 LMAX i (kl v)) (extend1 LMAX i (ll v)).

(** str.upper on ASCII letters *)
Definition up (c : ascii) : ascii := let n := nat_of_ascii c in if (97 <=? n)%nat && (n <=? 122)%nat then ascii_of_nat (n - 32) else c.
Fixpoint upper (s : string) : string := match s with EmptyString => EmptyString | String c t => String (up c) (upper t) end.
(** 214-230, 516-532 *)
Definition frame_alpha (ref : string) (h1 l1 : R) : res R :=
  let r := upper ref in
  if String.eqb r "CF" then Ok ((h1 + 2 * l1) / 3)
  else if String.eqb r "CL" then Ok l1
  else if String.eqb r "CH" then Ok h1
  else if String.eqb r "CM" then Ok 1
  else if String.eqb r "CE" then Ok 0
  else Err OtherExn.

(** 102-236, FORMAT='tuple' *)
Definition love_tuple (LMAX : nat) (v : lv) : list R * list R * list R := (tab (LMAX + 1) (hl v), tab (LMAX + 1) (kl v), tab (LMAX + 1) (ll v)).
Definition read_love_numbers (contents : list (list tok)) (LMAX : option nat) (HEADER : nat) (COLUMNS : list string) (REF : string)
  : res (list R * list R * list R) :=
  match rev contents with
  | [] => Err IndexError
  | last :: _ =>
      do t <- column COLUMNS "l" last;
      do LMAX <- match LMAX, t with
                 | Some n, _ => Ok n
                 | None, TInf => Ok max_degree
                 | None, TInt n => Ok n
                 | None, TReal _ => Err ValueError
                 end;
      do st <- read_rows COLUMNS LMAX (mklv (fun _ => 0) (fun _ => 0) (fun _ => 0), (fun _ => false), None) (skipn HEADER contents);
      let '(v, known, l) := st in
      if (LMAX =? 0)%nat then Ok (love_tuple LMAX v) else
      do v <- fill_missing known LMAX v;
      match l with
      | None => Err UnboundLocalError
      | Some l =>
          let v := fold_left (extend LMAX) (seq l (LMAX + 1 - l)) v in
          do alpha <- frame_alpha REF (hl v 1%nat) (ll v 1%nat);
          Ok (love_tuple LMAX (lmapi (fun i f => if (i =? 1)%nat then f i - alpha else f i) v))
      end
  end.

(** 497-539 love_numbers.transform, in place on the three arrays *)
Definition transform (v : list R * list R * list R) (ref : string) : res (list R * list R * list R) :=
  let '(h, k, l) := v in
  (* hl[1], ll[1] are only read for CF, CL, CH; all three are written for every valid frame *)
  do alpha <- frame_alpha ref (nth 1 h 0) (nth 1 l 0);
  if (List.length h <? 2)%nat || (List.length k <? 2)%nat || (List.length l <? 2)%nat then Err IndexError
  else Ok (upd h 1 (nth 1 h 0 - alpha), upd k 1 (nth 1 k 0 - alpha), upd l 1 (nth 1 l 0 - alpha)).
