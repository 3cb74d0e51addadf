(** Model of helpers of gravity_toolkit/utilities.py.  Strings are lists of characters where they are taken apart
    (url_split, convert_arg_line_to_args) and Coq strings elsewhere. *)
From Coq Require Import Reals Ascii String DecimalString.
From Verif Require Import Base.
Close Scope Z_scope.
Open Scope list_scope.

(** ** utilities.py 250-264 url_split *)
Definition slash : ascii := "/"%char.
Definition is_slash (c : ascii) : bool := Ascii.eqb c slash.
(** posixpath: p[:i], p[i:] with i = p.rfind('/') + 1 *)
Fixpoint cut (p : list ascii) : list ascii * list ascii :=
  match p with
  | [] => ([], [])
  | c :: r => let '(h, t) := cut r in
      match h with
      | [] => if is_slash c then ([c], t) else ([], c :: t)
      | _ => (c :: h, t)
      end
  end.
Fixpoint drop_slashes (l : list ascii) : list ascii :=
  match l with c :: r => if is_slash c then drop_slashes r else l | [] => [] end.
(** str.rstrip('/') *)
Definition rstrip (l : list ascii) : list ascii := rev (drop_slashes (rev l)).
(** posixpath.split *)
Definition path_split (p : list ascii) : list ascii * list ascii :=
  let '(h, t) := cut p in (if forallb is_slash h then h else rstrip h, t).
Definition chars (s : string) : list ascii := list_ascii_of_string s.
Definition str_eqb (a b : list ascii) : bool := if list_eq_dec ascii_dec a b then true else false.
Definition protocols : list (list ascii) := map chars ["http:"; "https:"; "ftp:"; "s3:"]%string.
(** the first argument bounds the recursion depth; exceeding it is Python's RecursionError *)
Fixpoint url_split (depth : nat) (s : list ascii) : res (list (list ascii)) :=
  match depth with
  | 0%nat => Err OtherExn
  | S n =>
    let '(head, tail) := path_split s in
    if existsb (str_eqb head) protocols then Ok [s]
    else if existsb (str_eqb head) [[]; [slash]] then Ok [tail]
    else do l <- url_split n head; Ok (l ++ [tail])
  end.

(** ** utilities.py 267-280 convert_arg_line_to_args, one line without line breaks *)
Definition hash : ascii := "#"%char.
(** re.sub of the pattern: everything from the first # on *)
Fixpoint strip_comment (l : list ascii) : list ascii :=
  match l with [] => [] | c :: r => if Ascii.eqb c hash then [] else c :: strip_comment r end.
(** str.split(): [cur] is the token being read, reversed *)
Fixpoint tokens (ws : ascii -> bool) (cur l : list ascii) : list (list ascii) :=
  match l with
  | [] => match cur with [] => [] | _ => [rev cur] end
  | c :: r => if ws c then match cur with [] => tokens ws [] r | _ => rev cur :: tokens ws [] r end
              else tokens ws (c :: cur) r
  end.
Definition arg_line (ws : ascii -> bool) (l : list ascii) : list (list ascii) :=
  filter (fun a => negb (forallb ws a)) (tokens ws [] (strip_comment l)).

(** ** utilities.py 330-351 *)
Definition even (x : R) : Z := (2 * Int_part (x / 2))%Z.
Definition ceil (x : R) : Z := (- Int_part (- x / 1))%Z.

(** ** utilities.py 383-408 create_unique_file *)
Open Scope string_scope.
Definition decimal (k : nat) : string := NilEmpty.string_of_uint (Nat.to_uint k).
(** name tried at attempt k *)
Definition candidate (stem suffix : string) (k : nat) : string :=
  match k with 0%nat => stem ++ suffix | _ => stem ++ "_" ++ decimal k ++ suffix end.
(** [opens k name]: does open(name, 'xb') succeed at attempt k (false: OSError of any kind).  [fuel] bounds the number of
    attempts looked at; None: still trying. *)
Fixpoint unique_loop (opens : nat -> string -> bool) (stem suffix : string) (k fuel : nat) : option (nat * string) :=
  match fuel with
  | 0%nat => None
  | S f => let name := candidate stem suffix k in if opens k name then Some (k, name) else unique_loop opens stem suffix (S k) f
  end.
Definition create_unique_file (opens : nat -> string -> bool) (stem suffix : string) (fuel : nat) : option (nat * string) :=
  unique_loop opens stem suffix 0 fuel.

(** ** utilities.py 1683-1774: CMR responses.  [updated] is already converted (get_unix_time may return None) *)
Record entry := mkentry { e_title : string; e_mtime : option Z; e_links : list (string * string) }.
Definition relation (endpoint : string) : res string :=
  if String.eqb endpoint "data" then Ok "http://esipfed.org/ns/fedsearch/1.1/data#"
  else if String.eqb endpoint "s3" then Ok "http://esipfed.org/ns/fedsearch/1.1/s3#" else Err KeyError.
(** the inner loop: the first link of the wanted relation; the dictionary is consulted for every link *)
Fixpoint first_link (endpoint : string) (links : list (string * string)) : res (option string) :=
  match links with
  | [] => Ok None
  | (r, href) :: rest => do w <- relation endpoint; if String.eqb r w then Ok (Some href) else first_link endpoint rest
  end.
(** the tuple returned: two lists, or three *)
Inductive cmr_result := Two (names urls : list string) | Three (names urls : list string) (mtimes : list (option Z)).
Fixpoint cmr_loop (endpoint : string) (es : list entry) (names urls : list string) (mtimes : list (option Z)) : res cmr_result :=
  match es with
  | [] => Ok (Three names urls mtimes)
  | e :: rest =>
    do u <- first_link endpoint (e_links e);
    cmr_loop endpoint rest (names ++ [e_title e])%list (urls ++ match u with Some h => [h] | None => [] end)%list (mtimes ++ [e_mtime e])%list
  end.
(** [results]: None when 'feed' or 'entry' is missing *)
Definition cmr_filter_json (results : option (list entry)) (endpoint : string) : res cmr_result :=
  match results with None => Ok (Two [] []) | Some es => cmr_loop endpoint es [] [] [] end.
(** utilities.py 1734-1774 *)
Definition relation_meta (endpoint : string) : res string :=
  if String.eqb endpoint "documentation" then Ok "http://esipfed.org/ns/fedsearch/1.1/documentation#" else relation endpoint.
Fixpoint all_links (endpoint : string) (links : list (string * string)) : res (list string) :=
  match links with
  | [] => Ok []
  | (r, href) :: rest => do w <- relation_meta endpoint; do t <- all_links endpoint rest; Ok (if String.eqb r w then href :: t else t)
  end.
Definition cmr_metadata_json (results : option (list entry)) (endpoint : string) : res (list string) :=
  match results with
  | None => Ok []
  | Some es => do ls <- mapM (fun e => all_links endpoint (e_links e)) es; Ok (List.concat ls)
  end.

(** ** utilities.py 1522-1630 cmr_product_shortname: the dictionary [grace][L2][center][RL06] etc. *)
Definition l2_grace (c : string) (products : list string) : list string :=
  map (fun p => "GRACE_" ++ p ++ "_L2_GRAV_" ++ c ++ "_RL06")
      (filter (fun p => negb (String.eqb c "CSR" && (String.eqb p "GAA" || String.eqb p "GAB"))) products).
Definition shortname_table (version : string) (products : list string) : list (string * string * string * string * list string) :=
  [("grace", "L1B", "GFZ", "RL06", ["GRACE_AOD1B_GRAV_GFZ_RL06"]);
   ("grace", "L1B", "JPL", "RL02", ["GRACE_L1B_GRAV_JPL_RL02"]); ("grace", "L1B", "JPL", "RL03", ["GRACE_L1B_GRAV_JPL_RL03"]);
   ("grace", "L2", "CSR", "RL06", l2_grace "CSR" products); ("grace", "L2", "GFZ", "RL06", l2_grace "GFZ" products);
   ("grace", "L2", "JPL", "RL06", l2_grace "JPL" products);
   ("grace-fo", "L1A", "JPL", "RL04", ["GRACEFO_L1A_ASCII_GRAV_JPL_RL04"]); ("grace-fo", "L1B", "JPL", "RL04", ["GRACEFO_L1B_ASCII_GRAV_JPL_RL04"]);
   ("grace-fo", "L2", "CSR", "RL06", ["GRACEFO_L2_CSR_MONTHLY_006" ++ version]);
   ("grace-fo", "L2", "GFZ", "RL06", ["GRACEFO_L2_GFZ_MONTHLY_006" ++ version]);
   ("grace-fo", "L2", "JPL", "RL06", ["GRACEFO_L2_JPL_MONTHLY_006" ++ version])].
Definition cmr_product_shortname (mission center release level version : string) (products : list string) : res (list string) :=
  match find (fun x => let '(m, l, c, r, _) := x in String.eqb m mission && String.eqb l level && String.eqb c center && String.eqb r release)%bool
     (shortname_table version products) with
  | Some (_, _, _, _, names) => Ok names
  | None => Err OtherExn
  end.
(** utilities.py 1633-1680 *)
Definition cmr_readable_granules (product level solution version : string) : string :=
  if String.eqb level "L1B" && String.eqb product "AOD1B" then "AOD1B_*"
  else if String.eqb level "L1A" || String.eqb level "L1B" then "grace*"
  else if String.eqb level "L2" && String.eqb product "GSM" then product ++ "-2_???????-???????_????_?????_" ++ solution ++ "_???" ++ version ++ "*"
  else if String.eqb level "L2" then product ++ "-2_???????-???????_????_?????_BC01_???" ++ version ++ "*"
  else "*".
