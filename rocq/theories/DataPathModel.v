(** Model of get_data_path (utilities.py 96-113) and import_dependency (115-154).
    A text is split at "/" as by pathlib: empty pieces and "." vanish, ".." stays, a leading "/" makes it absolute (a leading "//" is not told from "/").
    The folder of the package is an absolute path, given by its parts.  A module that can be imported is given by the names it has. *)
From Coq Require Import List Bool String Ascii.
From Verif Require Import Base.
Import ListNotations.
Close Scope Z_scope.
Open Scope string_scope.

Fixpoint pieces (s cur : string) : list string :=
  match s with
  | "" => [cur]
  | String c r => if Ascii.eqb c "/" then cur :: pieces r "" else pieces r (cur ++ String c "")
  end.
Definition keep (x : string) : bool := negb (x =? "") && negb (x =? ".").
Definition parts (s : string) : list string := filter keep (pieces s "").
Definition absolute (s : string) : bool := match s with String c _ => Ascii.eqb c "/" | "" => false end.
(** filepath.joinpath( *relpath ): an absolute part starts again *)
Definition joinpath (base : list string) (l : list string) : list string := fold_left (fun acc s => if absolute s then parts s else acc ++ parts s)%list l base.
Inductive relpath := AList (l : list string) | AText (s : string) | APathObject (s : string).
(** lines 106-113: no branch for a Path, so None *)
Definition get_data_path (package : list string) (r : relpath) : option (list string) :=
  match r with AList l => Some (joinpath package l) | AText s => Some (joinpath package [s]) | APathObject _ => None end.

(** what importlib.import_module does with a name *)
Inductive import_outcome := Found (names : list string) | NotFound | Broken (e : exn).
(** the exception ImportError, or one of Base *)
Inductive failure := ImportError | Other (e : exn).
(** the module, or the empty class of line 143, which has no names *)
Record pymodule := mkmodule { real : bool; names : list string }.
(** lines 138-154; the name is a text *)
Definition import_dependency (world : string -> import_outcome) (name : string) (raise_exception : bool) : pymodule + failure :=
  match world name with
  | Found l => inl (mkmodule true l)
  | NotFound => if raise_exception then inr ImportError else inl (mkmodule false [])
  | Broken e => inr (Other e)
  end.
(** module.name *)
Definition attribute (m : pymodule) (n : string) : res unit := if existsb (String.eqb n) (names m) then Ok tt else Err AttributeError.
(** the lines  x = import_dependency('x')  at the head of a module, in order (harmonics.py 114-117 and the like) *)
Fixpoint head_of_module (world : string -> import_outcome) (l : list string) : list pymodule + failure :=
  match l with
  | [] => inl []
  | n :: r => match import_dependency world n false with
              | inr e => inr e
              | inl m => match head_of_module world r with inl ms => inl (m :: ms) | inr e => inr e end
              end
  end.
