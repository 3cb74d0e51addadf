(** Model of icgem_list (utilities.py 2574-2611): the table of the models of the ICGEM page.  [page] gives the references of the table, or the failure of the request or of the parser (every exception becomes Exception, here OtherExn).
    A reference is a list of characters without line ends; url_split of a reference (C59) is represented by the reference itself.  A dictionary is a list of pairs in the order of insertion. *)
From Coq Require Import List Bool Ascii.
From Verif Require Import Base.
Import ListNotations.
Close Scope Z_scope.
Open Scope char_scope.
Open Scope list_scope.

Definition text := list ascii.
(** posixpath.basename: what follows the last slash *)
Fixpoint base_from (acc l : text) : text := match l with [] => rev acc | c :: r => if Ascii.eqb c "/" then base_from [] r else base_from (c :: acc) r end.
Definition basename (l : text) : text := base_from [] l.
(** re.findall(r'(.*?).gfc', l): the shortest group, one more character, then gfc; the next match begins after it.  [cur]: the characters since the end of the last match, last first *)
Fixpoint findall (cur l : text) : list text :=
  match l with
  | [] => []
  | c :: t =>
    match cur, t with
    | _ :: g, f :: k :: r => if (Ascii.eqb c "g" && Ascii.eqb f "f" && Ascii.eqb k "c")%bool then rev g :: findall [] r else findall (c :: cur) t
    | _, _ => findall (c :: cur) t
    end
  end.
(** list.pop() *)
Definition pop (l : list text) : res text := match rev l with [] => Err IndexError | x :: _ => Ok x end.
(** re.search(r'gfc$', l) *)
Definition ends_gfc (l : text) : bool :=
  match rev l with c :: f :: g :: _ => (Ascii.eqb c "c" && Ascii.eqb f "f" && Ascii.eqb g "g")%bool | _ => false end.
Fixpoint teqb (a b : text) : bool := match a, b with [] , [] => true | c :: a, d :: b => (Ascii.eqb c d && teqb a b)%bool | _, _ => false end.
Definition dict := list (text * text).
(** d[k] = v: the place of a key that is there is kept *)
Fixpoint setitem (d : dict) (k v : text) : dict :=
  match d with [] => [(k, v)] | (k', v') :: r => if teqb k' k then (k', v) :: r else (k', v') :: setitem r k v end.
Definition getitem (d : dict) (k : text) : option text := match find (fun p => teqb (fst p) k) d with Some p => Some (snd p) | None => None end.
(** lines 2610-2611 *)
Fixpoint collect (refs : list text) (d : dict) : res dict :=
  match refs with
  | [] => Ok d
  | f :: r => if ends_gfc f then do k <- pop (findall [] (basename f)); collect r (setitem d k f) else collect r d
  end.
Definition icgem_list (page : option (list text)) : res dict := match page with None => Err OtherExn | Some refs => collect refs [] end.
