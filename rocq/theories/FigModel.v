(** Model of utilities.py: from_figshare (2125-2189), on top of get_hash and from_http (SyncModel.v, DownModel.v), and s3_bucket (1280-1296), s3_key (1299-1315) on top of url_split (UtilModel.v).
    The answer of the figshare server is a list of files; the regular expression of the names is an arbitrary test. *)
From Coq Require Import Reals String Ascii.
From Verif Require Import Base SyncModel DownModel UtilModel.
Close Scope Z_scope.
Close Scope R_scope.
Open Scope list_scope.

Record entry := mkentry { e_name : string; e_url : url; e_md5 : string }.
Section Fig.
Context (hash : bytes -> string) (server : url -> option bytes).
(** 2175 *)
Definition place (directory : string) (e : entry) : string := join (join directory "geocenter") (e_name e).
(** 2173-2189: download, then the checksum of the local file *)
Fixpoint verified (directory : string) (tr : url -> transfer) (l : list entry) (f : fs) : list op * res unit :=
  match l with
  | [] => ([], Ok tt)
  | e :: rest =>
      let p := place directory e in
      let s := get_item hash server (mkitem (e_url e) p Http (tr (e_url e))) f in
      match snd s with
      | Err x => s
      | Ok _ =>
          let g := exec (fst s) f in
          if String.eqb (get_hash hash g p) (e_md5 e) then let s' := verified directory tr rest g in (fst s ++ fst s', snd s')
          else (fst s, Err OtherExn)
      end
  end.
(** 2172 *)
Definition from_figshare (wanted : string -> bool) (directory : string) (tr : url -> transfer) (files : list entry) (f : fs) : list op * res unit :=
  verified directory tr (filter (fun e => wanted (e_name e)) files) f.
End Fig.

(** re.sub(r's3:\/\/', r'', host[0], re.IGNORECASE): the fourth argument is the number of replacements; re.IGNORECASE is 2.  [skip]: characters of a match that are still to be left out *)
Definition s3 : list ascii := chars "s3://".
Fixpoint starts (p l : list ascii) : bool :=
  match p, l with [], _ => true | a :: p, b :: l => (Ascii.eqb a b && starts p l)%bool | _ :: _, [] => false end.
Fixpoint sub (n skip : nat) (l : list ascii) : list ascii :=
  match l with
  | [] => []
  | c :: r => match skip with
              | S k => sub n k r
              | 0 => match n with
                     | S n' => if starts s3 l then sub n' 4 r else c :: sub n 0 r
                     | 0 => l
                     end
              end
  end.
(** host is never empty; depth as in url_split *)
Definition s3_bucket (depth : nat) (u : list ascii) : res (list ascii) := do h <- url_split depth u; match h with a :: _ => Ok (sub 2 0 a) | [] => Err IndexError end.
(** posixpath.join *)
Definition path_join (a b : list ascii) : list ascii :=
  if starts [slash] b then b else match rev a with [] => a ++ b | c :: _ => if is_slash c then a ++ b else a ++ slash :: b end.
Definition s3_key (depth : nat) (u : list ascii) : res (list ascii) :=
  do h <- url_split depth u; match h with _ :: a :: l => Ok (fold_left path_join l a) | _ => Err TypeError end.
