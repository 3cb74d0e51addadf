(** Model of the programs that keep a local copy of a data archive: http_pull_file, ftp_mirror_file and s3_pull_file of the sync programs,
    gzip_copy_file of cnes_grace_sync.py, from_http and from_ftp of utilities.py, the listing loop of esa_costg_swarm_sync.py and the monthly
    archives of gfz_isdc_dealiasing_ftp.py.
    A file has contents and a modification time.  A program is the list of the steps it takes on the file system, with its outcome: a run that is
    interrupted (crash, lost connection, full disk) is a prefix of this list.  The clock of the file system is an input: every step that changes the
    contents carries the time at which it happens.  Access times, permissions, log messages and the network protocol are not modelled. *)
From Coq Require Import Reals String.
Require Coq.Init.Byte.
From Verif Require Import Base.
From Verif Require UtilModel.
Import UtilModel(even).
Close Scope Z_scope.
Open Scope R_scope.

Definition bytes : Type := list Coq.Init.Byte.byte.
Record file := mkfile { content : bytes; mtime : R }.
Definition fs : Type := string -> option file.
Definition set_file (f : fs) (p : string) (x : option file) : fs := fun q => if String.eqb q p then x else f q.

(** open(mode='wb') truncates; write appends; os.utime sets the modification time *)
Inductive step := Open (now : R) | Write (now : R) (b : bytes) | Utime (m : R).
Definition apply (s : step) (x : option file) : option file :=
  match s, x with
  | Open now, _ => Some (mkfile [] now)
  | Write now b, Some y => Some (mkfile (content y ++ b) now)
  | Utime m, Some y => Some (mkfile (content y) m)
  | _, None => None
  end.
Definition op : Type := string * step.
Definition exec (l : list op) (f : fs) : fs := fold_left (fun g o => set_file g (fst o) (apply (snd o) (g (fst o)))) l f.

(** a file of the archive with the modification time the server reports (ftp_list: None if the server refuses MDTM) *)
Record remote := mkremote { r_name : string; r_data : bytes; r_mtime : option R }.
(** how the contents arrive: the time of opening the local file and the pieces with their times *)
Record transfer := mktransfer { t_open : R; t_chunks : list (R * bytes) }.
Record options := mkoptions { o_list : bool; o_clobber : bool; o_checksum : bool }.

Section Sync.
(** hashlib.md5(...).hexdigest() *)
Context (hash : bytes -> string).

(** the copy: open, write, and the modification time; os.utime(f, (atime, None)) raises TypeError after the transfer *)
Definition copy_steps (p : string) (r : remote) (t : transfer) : list op * res unit :=
  let l := ((p, Open (t_open t)) :: map (fun c => (p, Write (fst c) (snd c))) (t_chunks t))%list in
  match r_mtime r with
  | Some m => ((l ++ [(p, Utime m)])%list, Ok tt)
  | None => (l, Err TypeError)
  end.

(** gfz_isdc_grace_ftp.py 289-342, gfz_icgem_costg_ftp.py 168-221 and gfz_isdc_dealiasing_ftp.py 158-189 (ftp_mirror_file, the last without LIST and CHECKSUM),
    esa_costg_swarm_sync.py 149-212, itsg_graz_grace_sync.py 176-214 (LIST only) and podaac_cumulus.py 302-343 (http_pull_file), podaac_cumulus.py 346-379 (s3_pull_file; both
    without GZIP).  even(None) raises TypeError *)
Definition pull (o : options) (p : string) (r : remote) (t : transfer) (f : fs) : list op * res unit :=
  match (match f p with
         | Some x => if o_checksum o then Ok (negb (String.eqb (hash (content x)) (hash (r_data r))))
                     else match r_mtime r with Some m => Ok (even m >? even (mtime x))%Z | None => Err TypeError end
         | None => Ok true
         end) with
  | Err e => ([], Err e)
  | Ok test => if (test || o_clobber o)%bool then (if o_list o then ([], Ok tt) else copy_steps p r t) else ([], Ok tt)
  end.

(** the loops over the listing (e.g. gfz_isdc_grace_ftp.py 131-137): the first exception ends the program *)
Fixpoint sync (o : options) (place : string -> string) (l : list (remote * transfer)) (f : fs) : list op * res unit :=
  match l with
  | [] => ([], Ok tt)
  | (r, t) :: rest =>
      let s := pull o (place (r_name r)) r t f in
      match snd s with
      | Err e => s
      | Ok _ => let s' := sync o place rest (exec (fst s) f) in ((fst s ++ fst s')%list, snd s')
      end
  end.

(** utilities.py 172-207: the hash of a file *)
Definition get_hash (f : fs) (p : string) : string := match f p with Some x => hash (content x) | None => EmptyString end.
(** utilities.py 740-819 (from_http) and 523-615 (from_ftp, which sets the modification time): the steps on the local file and the returned buffer *)
Definition from_http (p : option string) (h : string) (data : bytes) (t : transfer) : list op * bytes :=
  (match p with
   | Some p => if String.eqb h (hash data) then [] else ((p, Open (t_open t)) :: map (fun c => (p, Write (fst c) (snd c))) (t_chunks t))%list
   | None => []
   end, data).
Definition from_ftp (p : option string) (h : string) (data : bytes) (m : option R) (t : transfer) : list op * res bytes :=
  match p with
  | Some p => if String.eqb h (hash data) then ([], Ok data) else
      let s := copy_steps p (mkremote p data m) t in (fst s, do _u <- snd s; Ok data)
  | None => ([], Ok data)
  end.
End Sync.

(** ** ftp_list (utilities.py 485-520) and http_list (717-737): names and times, selected and sorted by index lists *)
Definition take {A} (l : list A) (d : A) (is : list nat) : list A := map (fun i => nth i l d) is.
(** sorted(enumerate(names), key=lambda i: i[1]): stable *)
Fixpoint insert_by {A} (leb : A -> A -> bool) (x : nat * A) (l : list (nat * A)) : list (nat * A) :=
  match l with
  | [] => [x]
  | y :: r => if leb (snd x) (snd y) then x :: l else y :: insert_by leb x r
  end.
Definition sort_by {A} (leb : A -> A -> bool) (l : list (nat * A)) : list (nat * A) := fold_right (insert_by leb) [] l.
Definition list_files (leb : string -> string -> bool) (pattern : option (string -> bool)) (sort : bool) (names : list string) (times : list (option R)) : list string * list (option R) :=
  let a := match pattern with
           | Some q => let is := filter (fun i => q (nth i names EmptyString)) (seq 0 (List.length names)) in (take names EmptyString is, take times None is)
           | None => (names, times)
           end in
  if sort then let is := map fst (sort_by leb (combine (seq 0 (List.length (fst a))) (fst a))) in (take (fst a) EmptyString is, take (snd a) None is) else a.

(** ** esa_costg_swarm_sync.py 93-118: the pages of the listing; [page pos n] is what the server returns.  Without end for a server that keeps returning full pages: [fuel] iterations,
    None when they do not suffice *)
Fixpoint esa_list {A} (page : nat -> nat -> list A) (fuel pos maxfiles : nat) (acc : list A) : option (list A) :=
  match fuel with
  | 0%nat => None
  | S fuel =>
      let prevmax := maxfiles in
      let table := page pos prevmax in
      let acc := (acc ++ table)%list in
      let maxfiles := List.length table in
      if (maxfiles =? prevmax)%nat then esa_list page fuel (pos + maxfiles) maxfiles acc else Some acc
  end.
(** 121-141: the index lists the valid names of the listing, whether or not they were transferred *)
Definition esa_index (valid : string -> bool) (names : list string) : list string := filter valid names.

(** ** cnes_grace_sync.py *)
(** 250-284 gzip_copy_file: [g] stands for the compressed stream: the 10 bytes of the header with the modification time of the member, then the data.  A local file that is too short for
    the time in its header (bytes 4 to 7) raises struct.error, before CLOBBER is looked at *)
Definition header_time (b : bytes) (time_of : bytes -> Z) : res Z := if (List.length b <? 8)%nat then Err OtherExn else Ok (time_of (firstn 4 (skipn 4 b))).
Definition gzip_copy (time_of : bytes -> Z) (clobber : bool) (p : string) (g : bytes) (m : Z) (t : transfer) (f : fs) : list op * res unit :=
  match (match f p with
         | Some x => do h <- header_time (content x) time_of; Ok (m >? h)%Z
         | None => Ok true
         end) with
  | Err e => ([], Err e)
  | Ok test => if (test || clobber)%bool then copy_steps p (mkremote p g (Some (IZR m))) t else ([], Ok tt)
  end.
(** 169-181, 195-199: without LOG the name fid1 has no value when the first archive is asked for *)
Definition cnes_download (log : bool) (hash : bytes -> string) (p : string) (data : bytes) (m : R) (t : transfer) (f : fs) : list op * res unit :=
  if negb log then ([], Err UnboundLocalError) else
  let s := fst (from_http hash (Some p) (get_hash hash f p) data t) in ((s ++ [(p, Utime m)])%list, Ok tt).

(** ** gfz_isdc_dealiasing_ftp.py 109-140: the archive of a month is written if it does not exist (or CLOBBER) and a file of the month is there; [pack] makes the archive *)
Definition aod_tar (clobber : bool) (pack : list remote -> bytes) (p : string) (rs : list remote) (t : transfer) (f : fs) : list op :=
  if ((0 <? List.length rs)%nat && (match f p with Some _ => false | None => true end || clobber))%bool
  then ((p, Open (t_open t)) :: map (fun c => (p, Write (fst c) (snd c))) (t_chunks t))%list else [].
