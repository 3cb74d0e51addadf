(** Model of the product downloads of utilities.py: from_csr (2263-2383), from_gfz (2388-2447) and from_gsfc (2504-2570), on top of get_hash, from_http and from_ftp (SyncModel.v).
    The file system, transfers and interruptions are those of SyncModel.v; directories are not modelled (mkdir never fails).  The server is a function from a URL (a list of its parts) to
    the contents of the file, None if it cannot be had; [ls] is the listing of a directory. *)
From Coq Require Import Reals String Ascii.
From Verif Require Import Base SyncModel.
Close Scope Z_scope.
Close Scope R_scope.
Open Scope string_scope.

Definition url : Type := list string.
(** directory.joinpath(name) for a name without separators *)
Definition join (d n : string) : string := d ++ "/" ++ n.
(** HOST[-1] *)
Definition base (u : url) : string := List.last u "".
(** one file: where it is, where it goes, whether it comes over http or ftp (with the time the server reports), and how it arrives *)
Inductive proto := Http | Ftp (m : R).
Record item := mkitem { i_url : url; i_path : string; i_proto : proto; i_transfer : transfer }.

Section Down.
Context (hash : bytes -> string) (server : url -> option bytes).
(** the body of the loops: get_hash of the local file, then from_http (e.g. 2319-2330) or from_ftp (2425-2435) *)
Definition get_item (x : item) (f : fs) : list op * res unit :=
  match server (i_url x) with
  | None => ([], Err OtherExn)
  | Some data =>
      match i_proto x with
      | Http => (fst (from_http hash (Some (i_path x)) (get_hash hash f (i_path x)) data (i_transfer x)), Ok tt)
      | Ftp m => let s := from_ftp hash (Some (i_path x)) (get_hash hash f (i_path x)) data (Some m) (i_transfer x) in (fst s, do _u <- snd s; Ok tt)
      end
  end.
Fixpoint fetch (l : list item) (f : fs) : list op * res unit :=
  match l with
  | [] => ([], Ok tt)
  | x :: rest =>
      let s := get_item x f in
      match snd s with
      | Err e => s
      | Ok _ => let s' := fetch rest (exec (fst s) f) in ((fst s ++ fst s')%list, snd s')
      end
  end.

(** ** from_csr *)
Inductive variable := VNone | VStr (s : string) | VList (l : list string).
(** 2304-2306, and the tests "in variable": None is not iterable *)
Definition names_of (v : variable) : res (list string) := match v with VNone => Err TypeError | VStr s => Ok [s] | VList l => Ok l end.
Definition has (s : string) (l : list string) : bool := existsb (String.eqb s) l.
(** 2309-2316 *)
Definition HOST : string := "http://download.csr.utexas.edu".
Definition slr_urls : list url :=
  [[HOST; "pub"; "slr"; "degree_5"; "CSR_Monthly_5x5_Gravity_Harmonics.txt"]; [HOST; "pub"; "slr"; "degree_2"; "C20_RL06.txt"]; [HOST; "pub"; "slr"; "degree_2"; "C21_S21_RL06.txt"];
   [HOST; "pub"; "slr"; "degree_2"; "C22_S22_RL06.txt"]; [HOST; "pub"; "slr"; "TN11E"; "TN11E.txt"]].
(** 2337-2339 *)
Definition geocenter_urls : list url := [[HOST; "pub"; "slr"; "geocenter"; "GCN_L1_L2_30d_CF-CM.txt"]; [HOST; "outgoing"; "cheng"; "gct2est.220_5s"]].
(** re.search(PROD, f): the product is somewhere in the name; re.search(r'\d{4}', f): four digits in a row are *)
Definition contains (p f : string) : bool := match String.index 0 p f with Some _ => true | None => false end.
Definition digit (c : ascii) : bool := let n := nat_of_ascii c in ((48 <=? n) && (n <=? 57))%nat.
Fixpoint year_like (f : string) : bool :=
  match f with
  | String a r => (digit a && match r with String b (String c (String d _)) => digit b && digit c && digit d | _ => false end || year_like r)%bool
  | EmptyString => false
  end.
Context (ls : url -> list string).
(** 2353-2383: the parts of the URL of a file, and its local name: the directory of the product, without the year *)
Definition remote_path (version : string) : url := [HOST; "outgoing"; "gracefo"; version].
Definition lri (version : string) : list (string * string * string) :=
  flat_map (fun prod => flat_map (fun year => map (fun fi => (prod, year, fi)) (filter (contains prod) (ls (remote_path version ++ [year])%list)))
    (filter year_like (ls (remote_path version)))) ["GAC"; "GAD"; "GSM"].
(** [tr] says how the transfer from a URL goes *)
Definition csr_items (directory version : string) (vs : list string) (tr : url -> transfer) : list item :=
  ((if has "SLR" vs then map (fun u => mkitem u (join directory (base u)) Http (tr u)) slr_urls else []) ++
   (if has "geocenter" vs then map (fun u => mkitem u (join (join directory "geocenter") (base u)) Http (tr u)) geocenter_urls else []) ++
   (if has "LRI" vs then map (fun x => let u := (remote_path version ++ [snd (fst x); snd x])%list in
      mkitem u (join (join (join (join directory "CSR") version) (fst (fst x))) (snd x)) Http (tr u)) (lri version) else []))%list.
Definition from_csr (directory version : string) (v : variable) (tr : url -> transfer) (f : fs) : list op * res unit :=
  match names_of v with Err e => ([], Err e) | Ok vs => fetch (csr_items directory version vs tr) f end.

(** ** from_gfz *)
Definition gfz_host : string := "isdcftp.gfz-potsdam.de".
Definition gfz_slr : list url :=
  [[gfz_host; "grace"; "Level-2"; "GFZ"; "RL06_SLR_C20"; "GFZ_RL06_C20_SLR.dat"]; [gfz_host; "grace"; "GravIS"; "GFZ"; "Level-2B"; "aux_data"; "GRAVIS-2B_GFZOP_GRACE+SLR_LOW_DEGREES_0003.dat"]].
Definition gfz_geocenter : url := [gfz_host; "grace"; "GravIS"; "GFZ"; "Level-2B"; "aux_data"; "GRAVIS-2B_GFZOP_GEOCENTER_0003.dat"].
Definition gfz_items (directory : string) (mtime : url -> R) (tr : url -> transfer) : list item :=
  (map (fun u => mkitem u (join directory (base u)) (Ftp (mtime u)) (tr u)) gfz_slr ++
   [mkitem gfz_geocenter (join (join directory "geocenter") (base gfz_geocenter)) (Ftp (mtime gfz_geocenter)) (tr gfz_geocenter)])%list.
Definition from_gfz (directory : string) (mtime : url -> R) (tr : url -> transfer) (f : fs) : list op * res unit := fetch (gfz_items directory mtime tr) f.

(** ** from_gsfc: [lines] decodes the file and splits its lines, [dates] is re.findall(r'\d+[\s+]\w{3}[\s+]\d{4}', _), [ym] is strftime('%Y%m', strptime(_, '%d %b %Y')) *)
Context (lines : bytes -> list string) (dates : string -> list string) (ym : string -> res string).
Definition gsfc_file : string := "gsfc_slr_5x5c61s61.txt".
(** 2559-2567: the name of the dated copy *)
Definition copy_name (data : bytes) : res string :=
  match filter (String.prefix "Data span:") (lines data) with
  | [span] => match dates span with
              | [a; b] => do y1 <- ym a; do y2 <- ym b; Ok ("GSFC_SLR_5x5c61s61_" ++ y1 ++ "_" ++ y2 ++ ".txt")
              | _ => Err ValueError
              end
  | _ => Err ValueError
  end.
(** 2568-2570: shutil.copyfile copies the local file; copystat sets its time.  [cut] is how copyfile splits the contents, [now] the clock *)
Definition copy_file (p q : string) (now : R) (cut : bytes -> list bytes) (f : fs) : list op * res unit :=
  match f p with
  | None => ([], Err OtherExn)
  | Some x => (((q, Open now) :: map (fun b => (q, Write now b)) (cut (content x)) ++ [(q, Utime (mtime x))])%list, Ok tt)
  end.
Definition from_gsfc (directory : string) (host : url) (copy : bool) (t : transfer) (now : R) (cut : bytes -> list bytes) (f : fs) : list op * res unit :=
  let p := join directory gsfc_file in
  let x := mkitem (host ++ [gsfc_file])%list p Http t in
  let s := get_item x f in
  match snd s, server (i_url x) with
  | Ok _, Some data =>
      if copy then match copy_name data with
                   | Err e => (fst s, Err e)
                   | Ok n => let s' := copy_file p (join directory n) now cut (exec (fst s) f) in ((fst s ++ fst s')%list, snd s')
                   end
      else s
  | _, _ => s
  end.
End Down.
