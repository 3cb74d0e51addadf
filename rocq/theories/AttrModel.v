(** Model of the attributes of harmonics and spatial objects under copy (harmonics.py 1315-1334, spatial.py 1182-1202, the lines of the attributes are the same in both): attributes is a list or a dictionary in the heap
    of Python; a new object has a new empty dictionary (harmonics.py __init__, spatial.py 133).  The fields of the objects are in HeapModel and HarmModel (C24, C67); the lines that copy them do not touch the attributes.
    Values are texts or references; other types of attributes (neither list nor dictionary) are not represented. *)
From Coq Require Import List Bool String Arith.
From Verif Require Import Base.
Import ListNotations.
Close Scope Z_scope.
Open Scope string_scope.
Open Scope nat_scope.

Inductive value := Text (s : string) | Ref (a : nat).
Inductive cell := CList (l : list value) | CDict (d : list (string * value)).
Record heap := mkheap { next : nat; cells : nat -> cell }.
Definition store (h : heap) (a : nat) (c : cell) : heap := mkheap (next h) (fun b => if b =? a then c else cells h b).
Definition alloc (h : heap) (c : cell) : heap * nat := (mkheap (S (next h)) (fun b => if b =? next h then c else cells h b), next h).
(** d[k] = v *)
Fixpoint setitem (d : list (string * value)) (k : string) (v : value) : list (string * value) :=
  match d with [] => [(k, v)] | (k', v') :: r => if String.eqb k' k then (k', v) :: r else (k', v') :: setitem r k v end.
Definition getitem (d : list (string * value)) (k : string) : option value := match find (fun p => String.eqb (fst p) k) d with Some p => Some (snd p) | None => None end.
(** d.update(e) *)
Definition update (d e : list (string * value)) : list (string * value) := fold_left (fun d p => setitem d (fst p) (snd p)) e d.
(** an object is represented by the address of its attributes; copy: lines 1319-1324 *)
Definition copy (h : heap) (o : nat) : heap * nat :=
  let (h, n) := alloc h (CDict []) in
  match cells h o with
  | CList _ => (h, o)
  | CDict d => match cells h n with CDict e => (store h n (CDict (update e d)), n) | CList _ => (h, n) end
  end.
(** what the user does with the attributes of an object: o.attributes[k] = v, o.attributes[k][k2] = v, o.attributes.append(v) *)
Inductive op := SetItem (k : string) (v : value) | SetNested (k k2 : string) (v : value) | Append (v : value).
Definition apply (h : heap) (o : nat) (x : op) : res heap :=
  match x, cells h o with
  | SetItem k v, CDict d => Ok (store h o (CDict (setitem d k v)))
  | SetNested k k2 v, CDict d =>
      match getitem d k with
      | Some (Ref a) => match cells h a with CDict e => Ok (store h a (CDict (setitem e k2 v))) | CList _ => Err TypeError end
      | Some (Text _) => Err TypeError
      | None => Err KeyError
      end
  | Append v, CList l => Ok (store h o (CList (l ++ [v])%list))
  | Append _, CDict _ => Err AttributeError
  | _, CList _ => Err TypeError
  end.
Fixpoint applies (h : heap) (o : nat) (l : list op) : res heap := match l with [] => Ok h | x :: r => do h <- apply h o x; applies h o r end.
(** attributes.get(k) and attributes[k][k2] as they are read *)
Definition read (h : heap) (o : nat) (k : string) : option value := match cells h o with CDict d => getitem d k | CList _ => None end.
Definition read_nested (h : heap) (o : nat) (k k2 : string) : option value := match read h o k with Some (Ref a) => read h a k2 | _ => None end.
