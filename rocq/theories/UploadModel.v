(** Model of to_figshare (utilities.py 2192-2261).  A local file is given by its name (the last part of its path) and its content, None if it cannot be opened.  The server is given by its folders, its files and by two
    functions that tell which folders it lets be made and in which paths it stores a file; a refused STOR raises error_perm (OtherExn here).  [connect] is the exception of the connection, the login or prot_p, if any.
    The chunks, the context and verbose are not represented. *)
From Coq Require Import List Bool String Ascii.
From Verif Require Import Base.
Import ListNotations.
Close Scope Z_scope.
Open Scope string_scope.

(** posixpath.join of two texts *)
Fixpoint ends_with_slash (s : string) : bool :=
  match s with "" => false | String c "" => Ascii.eqb c "/" | String _ r => ends_with_slash r end.
Definition join2 (a b : string) : string :=
  match b with
  | String c _ => if Ascii.eqb c "/" then b else if ((a =? "") || ends_with_slash a)%bool then a ++ b else a ++ "/" ++ b
  | "" => if ((a =? "") || ends_with_slash a)%bool then a else a ++ "/"
  end.
(** posixpath.join(a, directory, ...): None is a TypeError *)
Definition join_dir (a : string) (d : option string) : res string := match d with Some d => Ok (join2 a d) | None => Err TypeError end.
Record local_file (C : Type) := mklocal { lname : string; content : option C }.
Arguments mklocal {C}. Arguments lname {C}. Arguments content {C}.
Record server (C : Type) := mkserver { folders : list string; stored : string -> option C }.
Arguments mkserver {C}. Arguments folders {C}. Arguments stored {C}.
Definition put {C} (s : server C) (p : string) (c : C) : server C := mkserver (folders s) (fun q => if q =? p then Some c else stored s q).
(** lines 2243-2247: every exception is ignored, also that of join *)
Definition make_folder {C} (lets : list string -> string -> bool) (d : option string) (s : server C) : server C :=
  match join_dir "data" d with
  | Ok p => if lets (folders s) p then mkserver (p :: folders s) (stored s) else s
  | Err _ => s
  end.
(** lines 2249-2258: the state of the server also when it fails *)
Fixpoint upload {C} (stores : list string -> string -> bool) (d : option string) (files : list (local_file C)) (s : server C) : server C * option exn :=
  match files with
  | [] => (s, None)
  | f :: r =>
    match join_dir "data" d with
    | Err e => (s, Some e)
    | Ok p => let path := join2 p (lname f) in
              match content f with
              | None => (s, Some FileNotFound)
              | Some c => if stores (folders s) path then upload stores d r (put s path c) else (s, Some OtherExn)
              end
    end
  end.
Definition to_figshare {C} (connect : option exn) (lets stores : list string -> string -> bool) (files : list (local_file C)) (d : option string) (s : server C) : server C * option exn :=
  match connect with
  | Some e => (s, Some e)
  | None => upload stores d files (make_folder lets d s)
  end.
