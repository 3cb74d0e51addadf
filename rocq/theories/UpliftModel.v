(** Model of scripts/dealiasing_global_uplift.py: hourly maps of the crustal uplift by the dealiasing product (AOD1B), one file for each monthly archive.
    Archives and members as in AodModel (their names by what the regular expressions find in them), lines by what the regular expressions find (DealiasModel.aline).
    The load Love numbers are an input (C51, C52).  An output file is given by its axes, hours and maps; attributes, permissions and the formats (C29-C31) are not modelled. *)
From Coq Require Import Reals String.
From Verif Require Import Base UnitsModel LegendreModel SummationModel GenModel MasconModel Arr HarmModel MapsModel TimeModel DealiasModel AodModel.
Open Scope Z_scope.

(** 284-287, 312-316: an epoch of the month: day and hour (zero without a data set), coefficients in the order of the lines *)
Definition slot : Type := Z * Z * list (nat * nat * R * R).
Definition empty_slot : slot := (0, 0, []).
(** 312-327: the data sets of day DD go to the places (DD-1) nt, ..., DD nt - 1; a negative index (day 00) counts from the end *)
Definition put_sets (nt : nat) (DD : Z) (es : list (Z * list (nat * nat * R * R))) (slots : list slot) : res (list slot) :=
  let n := List.length slots in
  fold_left (fun acc p => do s <- acc; do i <- py_index n ((DD - 1) * Z.of_nat nt + Z.of_nat (fst p)); Ok (upd s i (DD, fst (snd p), snd (snd p))))
    (combine (seq 0 (List.length es)) es) (Ok slots).
(** 279-280, 289-331: the members; [last]: the data set read last, which sets the degrees and orders.  A day outside of the month raises at the first header *)
Fixpoint read_slots (product : string) (nt nh : nat) (ms : list tmember) (slots : list slot) (last : list (nat * nat * R * R)) : list slot * list (nat * nat * R * R) * outcome :=
  match ms with
  | [] => (slots, last, Done)
  | m :: rest =>
    match t_day m with
    | None => (slots, last, Raised IndexError)
    | Some DD =>
      match find_header product (t_lines m), py_index (List.length slots) ((DD - 1) * Z.of_nat nt) with
      | None, _ => (slots, last, Endless)
      | _, Err e => (slots, last, Raised e)
      | _, _ =>
        match read_member product nh nt (t_lines m) with
        | Err e => (slots, last, Raised e)
        | Ok None => (slots, last, Endless)
        | Ok (Some es) =>
          match put_sets nt DD es slots with
          | Err e => (slots, last, Raised e)
          | Ok s => read_slots product nt nh rest s (match rev es with e :: _ => snd e | [] => last end)
          end
        end
      end
    end
  end.
(** 277-282, 333-335; [when], [grace]: decimal dates and GRACE months of the epochs, which are not used in the maps *)
Definition month_series (when : slot -> R) (grace : R -> Z) (L nh : nat) (slots : list slot) (last : list (nat * nat * R * R)) : flat :=
  let at_ (t k : nat) := nth k (snd (nth t slots empty_slot)) nocoef in
  mkflat L L (map (fun k => deg_of (nth k last nocoef)) (seq 0 nh)) (map (fun k => ord_of (nth k last nocoef)) (seq 0 nh)) (Some (List.length slots))
    (map (fun k => fun t => snd (fst (at_ t k))) (seq 0 nh)) (map (fun k => fun t => snd (at_ t k)) (seq 0 nh))
    (TArr (map when slots)) (TArr (map (fun s => grace (when s)) slots)).
(** the content of an output file: longitudes, latitudes, hours since the start of the month, maps *)
Record ufile := mkufile { u_lon : list R; u_lat : list R; u_time : list Z; u_maps : list (arr R) }.
(** 333-348 *)
Definition uplift_maps (when : slot -> R) (grace : R -> Z) (L nh : nat) (lon lat df : list R) (P : arr R) (slots : list slot) (last : list (nat * nat * R * R)) : res ufile :=
  do y <- expand true (month_series when grace L nh slots last);
  do y <- convolve y df;
  do maps <- mapM (fun i => do x <- index y (Z.of_nat i);
                            do out <- harmonic_summation (clm x) (slm x) lon lat 0 L None (Some P);
                            Ok (as_grid (List.length lat) (List.length lon) out)) (seq 0 (List.length slots));
  Ok (mkufile lon lat (map (fun s => snd (fst s) + 24 * (fst (fst s) - 1)) slots) maps).
(** 250, 275: number of days of the month of the name *)
Definition month_days (ym : Z * Z) : res Z := match calendar_days (fst ym) with None => Err TypeError | Some dpm => py_get dpm (snd ym - 1) end.
Definition ufiles : Type := Z * Z -> option (ufile * R).
Definition uwrite (f : ufiles) (k : Z * Z) (x : ufile * R) : ufiles := fun n => if eq2 n k then Some x else f n.
(** 246-360: the archives; [clock]: when the file of an archive is written *)
Fixpoint uplift_archives (when : slot -> R) (grace : R -> Z) (clock : tarchive -> R) (product : string) (nt L : nat) (lon lat df : list R) (P : arr R) (f : ufiles) (archives : list tarchive) : ufiles * outcome :=
  match archives with
  | [] => (f, Done)
  | a :: rest =>
    let test := match f (ta_month a) with Some (_, t) => if Rlt_dec t (ta_mtime a) then true else false | None => true end in
    if test then
      match month_days (ta_month a) with
      | Err e => (f, Raised e)
      | Ok n =>
        let '(slots, last, o) := read_slots product nt (n_coefs L) (ta_members a) (repeat empty_slot (nt * Z.to_nat n)) [] in
        match o with
        | Done => match uplift_maps when grace L (n_coefs L) lon lat df P slots last with
                  | Err e => (f, Raised e)
                  | Ok u => uplift_archives when grace clock product nt L lon lat df P (uwrite f (ta_month a) (u, clock a)) rest
                  end
        | _ => (f, o)
        end
      end
    else uplift_archives when grace clock product nt L lon lat df P f rest
  end.
(** 100-363; mmCU is the unit of code 3 *)
Definition dealiasing_global_uplift (when : slot -> R) (grace : R -> Z) (clock : tarchive -> R) (DREL DSET : string) (love : love3) (DDEG : list R) (INTERVAL : Z) (BOUNDS : option (R * R * R * R))
    (archives : list tarchive) (f : ufiles) : ufiles * outcome :=
  match release DREL with
  | Err e => (f, Raised e)
  | Ok (nt, L) =>
    match (do s <- spacing_of DDEG; do ax <- grid_axes 0 INTERVAL (fst s) (snd s) BOUNDS; do df <- degree_factor L (UCode 3) (Some love);
           do pd <- plm_holmes L (map (fun x => cos (colat x)) (snd ax)) None; Ok (ax, df, fst pd)) with
    | Err e => (f, Raised e)
    | Ok (ax, df, P) => uplift_archives when grace clock DSET nt L (fst ax) (snd ax) df P f archives
    end
  end.
