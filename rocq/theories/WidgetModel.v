(** Model of gravity_toolkit/tools.py, class widgets: the callbacks set_release 233-241, set_product 244-260, set_max_degree 427-441, set_max_order 444-448, set_pole_tide 451-455,
    set_atm_corr 458-461, the defaults of select_options 331-413, the list of files to remove: set_removefile 708-714, set_removelabel 716-719, select_remove_file 705-706; unit_index 774-777.
    A widget is its options and its value; when a callback is called (the events of ipywidgets) is not modelled: the callbacks are functions of the values of the widgets.
    A value that is not among the options is a TraitError (OtherExn here).  Labels and layout are not represented. *)
From Coq Require Import List Bool String Ascii.
From Verif Require Import Base.
Import ListNotations.
Close Scope Z_scope.
Open Scope nat_scope.
Open Scope string_scope.

Record dropdown := mkd { options : list string; value : string }.
(** 240-241, 259-260: options = ...; value = ... *)
Definition assign (os : list string) (v : string) : res dropdown := if existsb (String.eqb v) os then Ok (mkd os v) else Err OtherExn.
(** 233-241 *)
Definition releases_of (center : string) : list string := if String.eqb center "CNES" then ["RL01"; "RL02"; "RL03"; "RL04"; "RL05"] else ["RL04"; "RL05"; "RL06"].
Definition set_release (center : string) : res dropdown := assign (releases_of center) (List.last (releases_of center) "").
(** 244-260; another center leaves valid_products unbound *)
Definition cnes_products (release : string) : res (list string) :=
  if String.eqb release "RL01" then Ok ["GAC"; "GSM"] else if String.eqb release "RL02" then Ok ["GAA"; "GAB"; "GSM"] else if String.eqb release "RL03" then Ok ["GAA"; "GAB"; "GSM"]
  else if String.eqb release "RL04" then Ok ["GSM"] else if String.eqb release "RL05" then Ok ["GAA"; "GAB"; "GSM"] else Err KeyError.
Definition products_of (center release : string) : res (list string) :=
  if String.eqb center "CNES" then cnes_products release
  else if String.eqb center "CSR" then Ok ["GAC"; "GAD"; "GSM"]
  else if (String.eqb center "GFZ" || String.eqb center "JPL")%bool then Ok ["GAA"; "GAB"; "GAC"; "GAD"; "GSM"]
  else Err UnboundLocalError.
Definition set_product (default center release : string) : res dropdown := do os <- products_of center release; assign os default.
(** 427-441: the widget itself, not its value, is compared with the names of the centers: it is never equal to a text *)
Definition widget_eqb (w : dropdown) (s : string) : bool := false.
Record bounded := mkb { top : nat; number : nat }.
Definition degree_table (l : list (string * nat)) (release : string) : res nat := match find (fun p => String.eqb release (fst p)) l with Some p => Ok (snd p) | None => Err KeyError end.
Definition set_max_degree (center release : dropdown) : res bounded :=
  do t <- (if widget_eqb center "CNES" then Ok [("RL01", 50); ("RL02", 50); ("RL03", 80); ("RL04", 90); ("RL05", 90)]
           else if (widget_eqb center "CSR" || widget_eqb center "JPL")%bool then Ok [("RL04", 60); ("RL05", 60); ("RL06", 60)]
           else if widget_eqb center "GFZ" then Ok [("RL04", 90); ("RL05", 90); ("RL06", 60)]
           else Err UnboundLocalError);
  do n <- degree_table t (value release); Ok (mkb n n).
(** 444-448 *)
Definition set_max_order (lmax : bounded) : bounded := mkb (number lmax) (number lmax).
(** 331-413, 451-461: corrections that are on by default *)
Definition pole_tide (release product : string) : bool := (String.eqb release "RL05" && String.eqb product "GSM")%bool.
Definition atm (release : string) : bool := String.eqb release "RL05".
Definition replaced (product name : string) : string := if String.eqb product "GSM" then name else "[none]".
Record corrections := mkc { geocenter : string; C20 : string; C30 : string; pole : bool; atmosphere : bool }.
Definition default_corrections (release product : string) : corrections :=
  mkc (replaced product "UCI") (replaced product "GSFC") (replaced product "GSFC") (pole_tide release product) (atm release).
(** 777 *)
Definition unit_index (units : list string) (v : string) : res nat :=
  (fix go (k : nat) l := match l with [] => Err OtherExn | u :: r => if String.eqb u v then Ok k else go (S k) r end) 1 units.
(** s.split(','), ','.join(l) *)
Fixpoint split_comma (cur s : string) : list string :=
  match s with
  | EmptyString => [cur]
  | String c r => if Ascii.eqb c ","%char then cur :: split_comma "" r else split_comma (cur ++ String c "") r
  end.
Definition join_comma (l : list string) : string := String.concat "," l.
(** 708-714, 716-719 *)
Definition set_removefile (label : string) : list string := match label with EmptyString => [] | _ => split_comma "" label end.
Definition set_removelabel (files : list string) : string := join_comma files.
(** 705-706: the files chosen are added to the list; the new label sets the list again when it differs from the old one *)
Definition choose (files chosen : list string) (label : string) : list string * string :=
  let l := set_removelabel (files ++ chosen)%list in
  (if String.eqb l label then (files ++ chosen)%list else set_removefile l, l).
