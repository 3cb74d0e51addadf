(** Model of utilities.py: attempt_login (860-944), the credentials of drive_list and from_drive (1381-1388, 1475-1482), the calls of get_token, list_tokens and revoke_token (1053-1061, 1110-1118, 1165-1173)
    with username=None and password=None unless they are given, and build_opener (947-1016) as far as which credentials are installed.
    The server is a function of the number of the attempt and of the credentials, so its answers can change with time.  What is typed is two lists of answers, one for builtins.input and one for getpass;
    asking when nothing is left is an EOFError.  The text of the prompts, the modes of the netrc file and the handlers of the opener are not represented. *)
From Coq Require Import List Bool String Arith.
From Verif Require Import Base.
Import ListNotations.
Close Scope Z_scope.
Open Scope nat_scope.
Open Scope string_scope.

Definition cred := (string * string)%type.
Inductive outcome := Opener (c : cred) | RuntimeErr | EOFErr | Unbound.
(** kwargs.setdefault(key, os.environ.get(NAME)), 901-902: a keyword given as None is there *)
Definition setdefault (kw : option (option string)) (env : option string) : option string := match kw with Some v => v | None => env end.
(** 905-915: the netrc entry, or the keywords when the file, the machine or the rights are missing *)
Definition stored (netrc : option cred) (ku kp : option (option string)) (eu ep : option string) : option string * option string :=
  match netrc with Some (u, p) => (Some u, Some p) | None => (setdefault ku eu, setdefault kp ep) end.
(** if not x *)
Definition truthy (x : option string) : option string := match x with Some EmptyString | None => None | Some s => Some s end.
(** 917-921: ask for what is missing; prompt gets a value only when the password is asked for *)
Definition ask (x : option string) (typed : list string) : option (string * bool * list string) :=
  match truthy x with
  | Some s => Some (s, false, typed)
  | None => match typed with [] => None | t :: r => Some (t, true, r) end
  end.
(** 923-944 *)
Fixpoint attempts (check : nat -> cred -> bool) (prompt : bool) (n k : nat) (c : cred) (names pws : list string) : outcome * list cred :=
  match n with
  | O => (RuntimeErr, [])
  | S n =>
      if check k c then (Opener c, [c])
      else match names with
           | [] => (EOFErr, [c])
           | u :: names =>
               if negb prompt then (Unbound, [c])
               else match pws with
                    | [] => (EOFErr, [c])
                    | p :: pws => let r := attempts check prompt n (S k) (u, p) names pws in (fst r, c :: snd r)
                    end
           end
  end.
(** attempt_login: the outcome and the credentials that were tried *)
Definition login (check : nat -> cred -> bool) (retries : nat) (netrc : option cred) (ku kp : option (option string)) (eu ep : option string) (names pws : list string) : outcome * list cred :=
  let s := stored netrc ku kp eu ep in
  match ask (fst s) names with
  | None => (EOFErr, [])
  | Some (u, _, names) =>
      match ask (snd s) pws with
      | None => (EOFErr, [])
      | Some (p, prompt, pws) => attempts check prompt retries 0 (u, p) names pws
      end
  end.
(** get_token, list_tokens, revoke_token: both keywords are always passed; five retries, 903 *)
Definition token_login (check : nat -> cred -> bool) (netrc : option cred) (u p eu ep : option string) (names pws : list string) : outcome * list cred :=
  login check 5 netrc (Some u) (Some p) eu ep names pws.
(** drive_list, from_drive: netrc.netrc().authenticators(urs) is asked only when both are missing; None cannot be unpacked *)
Definition drive_credentials (entry : option cred) (u p : option string) : res (option string * option string) :=
  match truthy u, truthy p with
  | None, None => match entry with Some (a, b) => Ok (Some a, Some b) | None => Err TypeError end
  | _, _ => Ok (u, p)
  end.
