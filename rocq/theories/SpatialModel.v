(** Model of gravity_toolkit/spatial.py, classes [spatial] and
    [scaling_factors].  A grid value is a real number or NaN ([None]); float
    rounding and infinities are not modelled.  [filename] and [attributes] are
    not modelled. *)
From Coq Require Import Reals.
From Verif Require Import Base TimeModel Arr HarmModel.
Close Scope Z_scope.
Open Scope nat_scope.

Definition val := option R.
Definition lift1 (f : R -> R) (a : val) : val := match a with Some x => Some (f x) | None => None end.
Definition lift2 (f : R -> R -> R) (a b : val) : val :=
  match a, b with Some x, Some y => Some (f x y) | _, _ => None end.
(** IEEE equality: NaN differs from everything *)
Definition veqb (a b : val) : bool :=
  match a, b with Some x, Some y => if Req_EM_T x y then true else false | _, _ => false end.
Definition isnan (a : val) : bool := match a with None => true | _ => false end.

Record sp := mksp {
  sdata : arr val; smask : arr bool; serr : option (arr val);   (* serr None: no attribute *)
  slon : list R; slat : list R;
  stime : tval R; smonth : tval Z;
  sfill : option val                                            (* None: Python None *)
}.

(** what the constructors establish: mask (and error) have the shape of data,
    the axes match lat and lon (and time, month for a series) *)
Definition swf (s : sp) : Prop :=
  same_shape (smask s) (sdata s) /\ (forall e, serr s = Some e -> same_shape e (sdata s)) /\
  rows (sdata s) = length (slat s) /\ cols (sdata s) = length (slon s) /\
  match depth (sdata s) with
  | None => True
  | Some n => exists ts ms, stime s = TArr ts /\ smonth s = TArr ms /\ length ts = n /\ length ms = n
  end.

Definition shape_eqb {A B} (a : arr A) (b : arr B) : bool :=
  (rows a =? rows b) && (cols a =? cols b) &&
  match depth a, depth b with None, None => true | Some n, Some k => n =? k | _, _ => false end.

(** [a[mask] = v] *)
Definition masked_set (k : arr bool) (v : val) (a : arr val) : arr val :=
  mkarr (rows a) (cols a) (depth a) (fun i j t => if get k i j t then v else get a i j t).

(** spatial.py:1170-1180 [update_mask].  A mask or error array of another shape
    makes the boolean indexing raise IndexError. *)
Definition update_mask (s : sp) : res sp :=
  match sfill s with
  | None => Ok s
  | Some f =>
      if negb (shape_eqb (smask s) (sdata s)) then Err IndexError else
      let k := mkarr (rows (sdata s)) (cols (sdata s)) (depth (sdata s))
        (fun i j t => get (smask s) i j t || veqb (get (sdata s) i j t) f || isnan (get (sdata s) i j t)) in
      match serr s with
      | None => Ok (mksp (masked_set k f (sdata s)) k None (slon s) (slat s) (stime s) (smonth s) (sfill s))
      | Some e => if negb (shape_eqb e (sdata s)) then Err IndexError else
          Ok (mksp (masked_set k f (sdata s)) k (Some (masked_set k f e)) (slon s) (slat s) (stime s) (smonth s) (sfill s))
      end
  end.

(** lines 1650-1658 [replace_masked] *)
Definition replace_masked (s : sp) : sp :=
  match sfill s with
  | None => s
  | Some f => mksp (masked_set (smask s) f (sdata s)) (smask s)
                (match serr s with None => None | Some e => Some (masked_set (smask s) f e) end)
                (slon s) (slat s) (stime s) (smonth s) (sfill s)
  end.
(** lines 1182-1202 [copy] *)
Definition scopy (s : sp) : sp := replace_masked s.

(** lines 1204-1221 [zeros_like]: the mask is all False as well *)
Definition zeros_like (s : sp) : sp :=
  mksp (amap (fun _ => Some 0%R) (sdata s)) (amap (fun _ => false) (smask s))
    (match serr s with None => None | Some e => Some (amap (fun _ => Some 0%R) e) end)
    (slon s) (slat s) (tmap (fun _ => 0%R) (stime s)) (tmap (fun _ => 0%Z) (smonth s)) (sfill s).

(** lines 1223-1245 [expand_dims] *)
Definition gexpand {A} (a : arr A) : arr A :=
  match depth a with
  | None => mkarr (rows a) (cols a) (Some 1) (fun i j _ => get a i j 0)
  | Some _ => a
  end.
Definition sexpand (s : sp) : res sp :=
  update_mask (mksp (gexpand (sdata s)) (gexpand (smask s))
    (match serr s with None => None | Some e => Some (gexpand e) end)
    (slon s) (slat s) (atleast_1d (stime s)) (atleast_1d (smonth s)) (sfill s)).

(** lines 1291-1306 [squeeze]: np.squeeze without axis removes EVERY axis of
    length 1, so a grid with one row or one column is no longer a grid
    afterwards; that outcome is represented by OtherExn. *)
Definition gsqueeze {A} (a : arr A) : res (arr A) :=
  if (rows a =? 1) || (cols a =? 1) then Err OtherExn else
  match depth a with
  | Some 1 => Ok (slice a 0)
  | _ => Ok a
  end.
Definition ssqueeze (s : sp) : res sp :=
  do d <- gsqueeze (sdata s);
  do k <- gsqueeze (smask s);
  do e <- match serr s with None => Ok None | Some e => do e' <- gsqueeze e; Ok (Some e') end;
  update_mask (mksp d k e (slon s) (slat s) (tsqueeze (stime s)) (tsqueeze (smonth s)) (sfill s)).

(** lines 1665-1671 [spacing] = (dlon, dlat) *)
Definition spacing (s : sp) : res (R * R) :=
  do a <- py_get (slat s) 1; do b <- py_get (slat s) 0;
  do c <- py_get (slon s) 1; do d <- py_get (slon s) 0;
  Ok (Rabs (c - d), Rabs (a - b)).

(** lines 1248-1289 [extend_matrix] *)
Definition wrap {A} (a : arr A) : arr A :=
  mkarr (rows a) (cols a + 2) (depth a)
    (fun i j t => if j =? 0 then get a i (cols a - 1) t
                  else if j =? cols a + 1 then get a i 0 t else get a i (j - 1) t).
Definition extend_matrix (s : sp) : res sp :=
  do d <- spacing s;
  do l0 <- py_get (slon s) 0;
  do l1 <- py_get (slon s) (-1);
  update_mask (mksp (wrap (sdata s)) (wrap (smask s)) (match serr s with None => None | Some e => Some (wrap e) end)
    ((l0 - fst d)%R :: slon s ++ [(l1 + snd d)%R])      (* line 1264: spacing[1] is the latitude step *)
    (slat s) (stime s) (smonth s) (sfill s)).

(** lines 1308-1342 [index] with date=True *)
Definition sindex (s : sp) (i : Z) : res sp :=
  match depth (sdata s) with
  | None => Err IndexError
  | Some n =>
      do k <- py_index n i;
      do t <- tget (stime s) i;
      do mo <- tget (smonth s) i;
      ssqueeze (mksp (slice (sdata s) k) (slice (smask s) k) (match serr s with None => None | Some e => Some (slice e k) end)
        (slon s) (slat s) (TScalar t) (TScalar mo) (sfill s))
  end.

(** lines 1344-1397 [subset] *)
Fixpoint sgather (s : sp) (ts : list R) (ms : list Z) (idx : list nat) (t : nat) (acc : sp) : res sp :=
  match idx with
  | [] => Ok acc
  | i :: rest =>
      if t <? nslice (sdata acc) then
        do ti <- py_get ts (Z.of_nat i);
        do mi <- py_get ms (Z.of_nat i);
        match stime acc, smonth acc with
        | TArr at_, TArr am =>
          sgather s ts ms rest (S t)
            (mksp (set_slice (sdata acc) t (fun a b => get (sdata s) a b i))
                  (set_slice (smask acc) t (fun a b => get (smask s) a b i))
                  (match serr acc, serr s with Some ea, Some e => Some (set_slice ea t (fun a b => get e a b i)) | x, _ => x end)
                  (slon acc) (slat acc) (TArr (upd at_ t ti)) (TArr (upd am t mi)) (sfill acc))
        | _, _ => Err TypeError
        end
      else Err IndexError
  end.
Definition ssubset (s : sp) (months : list Z) : res sp :=
  do ts <- list_of (stime s);
  do ms <- list_of (smonth s);
  let n := length months in
  if existsb (fun x => negb (memZ x ms)) months then Err IOErr
  else
    let months_list := filter (fun i => memZ (nth i ms 0%Z) months) (seq 0 (length ms)) in
    do r <- sgather s ts ms months_list 0
      (mksp (full (rows (sdata s)) (cols (sdata s)) (Some n) (Some 0%R)) (full (rows (sdata s)) (cols (sdata s)) (Some n) false)
        (match serr s with None => None | Some _ => Some (full (rows (sdata s)) (cols (sdata s)) (Some n) (Some 0%R)) end)
        (slon s) (slat s) (TArr (repeat 0%R n)) (TArr (repeat 0%Z n)) (sfill s));
    ssqueeze r.

(** lines 1399-1432 [offset], 1434-1467 [scale]: the argument is a scalar, a
    1-d array, a 2-d or a 3-d array.  Arrays of a shape that numpy would have to
    broadcast (or reject) give ValueError here. *)
Inductive svarg := VScalar (x : R) | VSeries (xs : list R) | VArr (a : arr val).
Definition data_op (op : R -> R -> R) (s : sp) (v : svarg) : res sp :=
  let tmp := scopy s in
  let d := sdata s in
  let ret d' k' := update_mask (mksp d' k' (serr tmp) (slon tmp) (slat tmp) (stime tmp) (smonth tmp) (sfill tmp)) in
  match v, depth d with
  | VScalar x, _ => ret (amap (lift1 (fun y => op x y)) d) (smask tmp)
  | VSeries xs, None =>
      ret (mkarr (rows d) (cols d) (Some (length xs)) (fun i j t => lift1 (fun y => op (nth t xs 0%R) y) (get d i j 0)))
          (mkarr (rows d) (cols d) (Some (length xs)) (fun i j t => get (smask s) i j 0))
  | VSeries xs, Some n =>
      if n <? length xs then Err IndexError else
      ret (mkarr (rows d) (cols d) (Some n)
            (fun i j t => if t <? length xs then lift1 (fun y => op (nth t xs 0%R) y) (get d i j t) else get (sdata tmp) i j t))
          (smask tmp)
  | VArr a, None =>
      match depth a with
      | None => if (rows a =? rows d) && (cols a =? cols d)
                then ret (mkarr (rows d) (cols d) None (fun i j t => lift2 op (get a i j t) (get d i j t))) (smask tmp)
                else Err ValueError
      | Some _ => ret (sdata tmp) (smask tmp)        (* no branch matches: nothing is done *)
      end
  | VArr a, Some n =>
      do nt <- tlen (stime s);
      if n <? nt then Err IndexError else
      if (rows a =? rows d) && (cols a =? cols d) && match depth a with None => true | Some k => nt <=? k end
      then ret (mkarr (rows d) (cols d) (Some n)
             (fun i j t => if t <? nt then lift2 op (get a i j (match depth a with None => 0 | Some _ => t end)) (get d i j t)
                           else get (sdata tmp) i j t)) (smask tmp)
      else Err ValueError
  end.
Definition offset := data_op (fun x y => (y + x)%R).
Definition sscale := data_op Rmult.

(** lines 1574-1585 [power], natural exponent: no update_mask at the end *)
Definition spower (p : nat) (s : sp) : sp :=
  let tmp := scopy s in
  mksp (amap (lift1 (fun x => pow x p)) (sdata s)) (smask tmp) (serr tmp) (slon tmp) (slat tmp) (stime tmp) (smonth tmp) (sfill tmp).

(** NaN-propagating reductions *)
Definition vsum (l : list val) : val := fold_right (lift2 Rplus) (Some 0%R) l.
Definition vmean (l : list val) : val := lift1 (fun x => (x / INR (length l))%R) (vsum l).
Fixpoint vfold1 (f : R -> R -> R) (l : list val) : val :=
  match l with [] => None | [x] => x | x :: t => lift2 f x (vfold1 f t) end.
Definition series {A} (a : arr A) (idx : list nat) (i j : nat) : list A := map (get a i j) idx.

(** lines 1552-1572 [sum], 1587-1602 [max], 1604-1619 [min]: no error, time or
    month in the result *)
Definition reduce_time (f : list val -> val) (s : sp) (idx : list nat) (t : tval R) : res sp :=
  update_mask (mksp (mkarr (rows (sdata s)) (cols (sdata s)) None (fun i j _ => f (series (sdata s) idx i j)))
    (mkarr (rows (sdata s)) (cols (sdata s)) None (fun i j _ => existsb (fun b => b) (series (smask s) idx i j)))
    None (slon s) (slat s) t TNone (sfill s)).
Definition ssum (p : nat) (s : sp) : res sp :=
  match depth (sdata s) with
  | None => Err ValueError
  | Some n => reduce_time (fun l => vsum (map (lift1 (fun x => pow x p)) l)) s (seq 0 n) TNone
  end.
(** the reduction of an empty axis raises ValueError *)
Definition smax (s : sp) : res sp :=
  match depth (sdata s) with
  | None | Some 0 => Err ValueError
  | Some n => reduce_time (vfold1 Rmax) s (seq 0 n) TNone
  end.
Definition smin (s : sp) : res sp :=
  match depth (sdata s) with
  | None | Some 0 => Err ValueError
  | Some n => reduce_time (vfold1 Rmin) s (seq 0 n) TNone
  end.
(** lines 1469-1501 [mean]: the object after the call and the mean field.
    The subtraction loops over self.time and uses the mean before its own
    masked cells are replaced. *)
Definition smean (s : sp) (apply : bool) (indices : option (list nat)) : res (sp * sp) :=
  match depth (sdata s) with
  | None => Err ValueError
  | Some n =>
      let idx := match indices with None => seq 0 n | Some l => l end in
      if negb (forallb (fun i => i <? n) idx) then Err IndexError else
      let m i j := vmean (series (sdata s) idx i j) in
      do self' <- (if apply then
           do nt <- tlen (stime s);
           if n <? nt then Err IndexError else
           Ok (mksp (mkarr (rows (sdata s)) (cols (sdata s)) (Some n)
                 (fun i j t => if t <? nt then lift2 Rminus (get (sdata s) i j t) (m i j) else get (sdata s) i j t))
                 (smask s) (serr s) (slon s) (slat s) (stime s) (smonth s) (sfill s))
         else Ok s);
      do r <- reduce_time vmean s idx (tmean idx (stime s));
      Ok (self', r)
  end.

(** lines 1503-1529 [flip] *)
Inductive axis := AxLat | AxLon | AxTime.
Definition gflip {A} (ax : axis) (a : arr A) : arr A :=
  match ax with
  | AxLat => mkarr (rows a) (cols a) (depth a) (fun i j t => get a (rows a - 1 - i) j t)
  | AxLon => mkarr (rows a) (cols a) (depth a) (fun i j t => get a i (cols a - 1 - j) t)
  | AxTime => match depth a with
              | None => a                             (* AxisError, ignored *)
              | Some n => mkarr (rows a) (cols a) (depth a) (fun i j t => get a i j (n - 1 - t))
              end
  end.
Definition sflip (ax : axis) (s : sp) : res sp :=
  let tmp := scopy s in
  do tm <- match ax with
           | AxTime => match stime s with TArr l => Ok (TArr (rev l)) | TScalar _ => Err IndexError | TNone => Err TypeError end
           | _ => Ok (stime s) end;
  update_mask (mksp (gflip ax (sdata s)) (gflip ax (smask s)) (match serr s with None => None | Some e => Some (gflip ax e) end)
    (match ax with AxLon => rev (slon s) | _ => slon s end)
    (match ax with AxLat => rev (slat s) | _ => slat s end)
    tm (smonth s) (sfill tmp)).

(** lines 1531-1550 [transpose] of a rank 2 object (axes=None): the coordinate
    attributes keep their names *)
Definition gtrans {A} (a : arr A) : arr A := mkarr (cols a) (rows a) (depth a) (fun i j t => get a j i t).
Definition stranspose (s : sp) : res sp :=
  match depth (sdata s) with
  | Some _ => Err OtherExn     (* other axis orders not modelled *)
  | None => update_mask (mksp (gtrans (sdata s)) (gtrans (smask s)) (match serr s with None => None | Some e => Some (gtrans e) end)
              (slon s) (slat s) (stime s) (smonth s) (sfill s))
  end.

(** lines 1621-1648 [replace_invalid]; mask argument of the same shape, or a 2-d
    mask for a series; any other shape is ignored *)
Definition replace_invalid (f : val) (extra : option (arr bool)) (s : sp) : res sp :=
  do u <- update_mask s;
  let k := match extra with
    | None => smask u
    | Some x =>
        if shape_eqb x (sdata u) then mkarr (rows (smask u)) (cols (smask u)) (depth (smask u)) (fun i j t => get (smask u) i j t || get x i j t)
        else match depth x, depth (sdata u) with
             | None, Some _ => mkarr (rows (smask u)) (cols (smask u)) (depth (smask u)) (fun i j t => get (smask u) i j t || get x i j 0)
             | _, _ => smask u
             end
    end in
  match extra, depth (sdata u) with
  | Some x, Some _ =>
      if negb (shape_eqb x (sdata u)) && match depth x with None => true | _ => false end
         && negb ((rows x =? rows (sdata u)) && (cols x =? cols (sdata u))) then Err ValueError
      else Ok (mksp (masked_set k f (sdata u)) k (match serr u with None => None | Some e => Some (masked_set k f e) end)
                 (slon u) (slat u) (stime u) (smonth u) (Some f))
  | _, _ => Ok (mksp (masked_set k f (sdata u)) k (match serr u with None => None | Some e => Some (masked_set k f e) end)
                 (slon u) (slat u) (stime u) (smonth u) (Some f))
  end.

(** lines 1721-1754 [__next__] (cursor in the object) *)
Record sobj := mksobj { sob : sp; scur : nat }.
Definition snext (o : sobj) : res (option (sp * sobj)) :=
  let s := sob o in
  match depth (sdata s) with
  | None => Ok None
  | Some n =>
      if scur o <? n then
        do t <- tget (stime s) (Z.of_nat (scur o));
        do mo <- tget (smonth s) (Z.of_nat (scur o));
        Ok (Some (mksp (slice (sdata s) (scur o)) (slice (smask s) (scur o))
               (match serr s with None => None | Some e => Some (slice e (scur o)) end)
               (slon s) (slat s) (TScalar t) (TScalar mo) (sfill s), mksobj s (S (scur o))))
      else Ok None
  end.
Fixpoint sfor (fuel : nat) (o : sobj) (acc : list sp) : res (option (list sp * sobj)) :=
  match fuel with
  | O => Ok None
  | S k => do r <- snext o;
           match r with None => Ok (Some (acc, o)) | Some (x, o') => sfor k o' (acc ++ [x]) end
  end.

(** lines 597-666 [from_list], date=True; [order]: np.argsort of the times.
    Objects of another grid shape raise ValueError (numpy broadcasting of length
    1 axes not modelled); an error attribute on a later object but not on the
    first raises AttributeError. *)
Fixpoint sload (objs : list sp) (order : list nat) (t : nat) (acc : sp) : res sp :=
  match order with
  | [] => Ok acc
  | i :: rest =>
      match nth_error objs i with
      | None => Err IndexError
      | Some o =>
          if negb ((rows (sdata o) =? rows (sdata acc)) && (cols (sdata o) =? cols (sdata acc))
                   && match depth (sdata o) with None => true | _ => false end) then Err ValueError else
          do e <- match serr acc, serr o with
                  | Some ea, Some eo => Ok (Some (set_slice ea t (fun a b => get eo a b 0)))
                  | None, Some _ => Err AttributeError
                  | x, None => Ok x
                  end;
          do ti <- scalar (stime o);
          do mi <- scalar (smonth o);
          match stime acc, smonth acc with
          | TArr at_, TArr am =>
            sload objs rest (S t)
              (mksp (set_slice (sdata acc) t (fun a b => get (sdata o) a b 0))
                    (set_slice (smask acc) t (fun a b => get (smask o) a b 0)) e
                    (slon acc) (slat acc) (TArr (upd at_ t ti)) (TArr (upd am t mi)) (sfill acc))
          | _, _ => Err TypeError
          end
      end
  end.
Definition sfrom_list (order : list nat) (objs : list sp) : res sp :=
  match objs with
  | [] => Err IndexError
  | o0 :: _ =>
      let n := length objs in
      do r <- sload objs order 0
        (mksp (full (rows (sdata o0)) (cols (sdata o0)) (Some n) (Some 0%R)) (full (rows (sdata o0)) (cols (sdata o0)) (Some n) false)
          (match serr o0 with None => None | Some _ => Some (full (rows (sdata o0)) (cols (sdata o0)) (Some n) (Some 0%R)) end)
          (slon o0) (slat o0) (TArr (repeat 0%R n)) (TArr (repeat 0%Z n)) (sfill o0));
      match smonth r with
      | TArr ms => update_mask (mksp (sdata r) (smask r) (serr r) (slon r) (slat r) (stime r) (tsqueeze (TArr (adjust_months ms))) (sfill r))
      | _ => Err TypeError
      end
  end.

(** * ascii files.  A line is the list of the numbers found in it; [rd] is
    "print with 4 decimals and parse" (a NaN prints as 'nan' and is not found by
    the regular expression). *)
Definition tok (rd : R -> R) (v : val) : list R := match v with Some x => [rd x] | None => [] end.
(** [self.data != self.fill_value] *)
Definition differs (d : val) (f : option val) : bool := match f with None => true | Some v => negb (veqb d v) end.
Definition cells (a : arr val) : list (nat * nat) := flat_map (fun i => map (fun j => (i, j)) (seq 0 (cols a))) (seq 0 (rows a)).
(** lines 727-764 [to_ascii] of a rank 2 object *)
Definition s_to_ascii (rd : R -> R) (date : bool) (s : sp) : res (list (list R)) :=
  match depth (sdata s) with
  | Some _ => Err ValueError                 (* three index arrays are unpacked into two names *)
  | None =>
    let valid := filter (fun p => differs (get (sdata s) (fst p) (snd p) 0) (sfill s) && negb (get (smask s) (fst p) (snd p) 0)) (cells (sdata s)) in
    do tm <- (if date then match valid, stime s with [], _ => Ok [] | _, TScalar t => Ok [rd t] | _, _ => Err TypeError end else Ok []);
    Ok (map (fun p => [rd (nth (snd p) (slon s) 0%R); rd (nth (fst p) (slat s) 0%R)]
                      ++ tok rd (get (sdata s) (fst p) (snd p) 0)
                      ++ match serr s with None => [] | Some e => tok rd (get e (fst p) (snd p) 0) end ++ tm) valid)
  end.

Inductive column := CLon | CLat | CData | CError | CTime.
Definition column_eqb (a b : column) : bool :=
  match a, b with CLon, CLon | CLat, CLat | CData, CData | CError, CError | CTime, CTime => true | _, _ => false end.
(** line 286: dict over zip(columns, numbers); the last occurrence of a key wins *)
Fixpoint dict_get (c : column) (l : list (column * R)) : option R :=
  match l with
  | [] => None
  | (k, v) :: t => match dict_get c t with Some w => Some w | None => if column_eqb c k then Some v else None end
  end.
Definition dict_req (c : column) (l : list (column * R)) : res R :=
  match dict_get c l with Some v => Ok v | None => Err KeyError end.
(** floor, and numpy's float to int conversion (truncation towards zero) *)
Definition Rfloor (x : R) : Z := Int_part x.
Definition Rtrunc (x : R) : Z := if Rlt_dec x 0 then (- Int_part (- x))%Z else Int_part x.
Definition setcell {A} (a : arr A) (i j : nat) (v : A) : arr A := set_lm a i j (fun _ => v).
(** lines 283-297, one line *)
Definition read_line (columns : list column) (dlon dlat : R) (date : bool) (st : sp) (nums : list R) : res sp :=
  let d := combine columns nums in
  do x <- dict_req CLon d;
  do y <- dict_req CLat d;
  do j <- py_index (length (slon st)) (Rtrunc (x / dlon));
  do i <- py_index (length (slat st)) (Rfloor ((90 - y) / dlat));
  do v <- dict_req CData d;
  do t <- (if date then do t <- dict_req CTime d; Ok (TScalar t) else Ok (stime st));
  Ok (mksp (setcell (sdata st) i j (Some v)) (setcell (smask st) i j false) (serr st)
       (upd (slon st) j x) (upd (slat st) i y) t (smonth st) (sfill st)).
Fixpoint read_lines columns dlon dlat date st (ls : list (list R)) : res sp :=
  match ls with [] => Ok st | l :: rest => do s' <- read_line columns dlon dlat date st l; read_lines columns dlon dlat date s' rest end.
(** lines 188-304 [from_ascii]: [lon0], [lat0] are the coordinate arrays set up
    from extent, spacing or zeros; [grace]: calendar_to_grace *)
Definition s_from_ascii (grace : R -> Z) (columns : list column) (lon0 lat0 : list R) (dlon dlat : R) (date : bool)
    (fillv : option val) (ls : list (list R)) : res sp :=
  let nlat := length lat0 in let nlon := length lon0 in
  let cs := filter (fun c => negb (column_eqb c CTime)) columns in        (* line 279 *)
  do r <- read_lines cs dlon dlat date
    (mksp (full nlat nlon None (Some 0%R)) (full nlat nlon None false) None lon0 lat0 TNone TNone fillv) ls;
  do mo <- (if date then match stime r with TScalar t => Ok (tsqueeze (TArr (adjust_months [grace t]))) | _ => Err TypeError end
            else Ok TNone);
  update_mask (mksp (sdata r) (smask r) (serr r) (slon r) (slat r) (stime r) mo (sfill r)).

(** * netCDF4/HDF5 files: the variable [data] with its dimensions, lon, lat and
    the fill value are stored exactly.  Write: lines 861-887 (expand_dims when
    date).  Read: lines 384-420, 516-543 *)
Definition nc_write (date : bool) (s : sp) : res sp := if date then sexpand s else Ok s.
Definition nc_read (f : sp) : res sp :=
  do d <- gsqueeze (sdata f);
  let d' := match depth d with
            | None => if length (slon f) =? rows d then gtrans d else d      (* lines 405-406 *)
            | Some _ => d end in
  let k := match sfill f with
           | Some v => mkarr (rows d') (cols d') (depth d') (fun i j t => veqb (get d' i j t) v)
           | None => mkarr (rows d') (cols d') (depth d') (fun _ _ _ => false) end in
  update_mask (mksp d' k None (slon f) (slat f) (tsqueeze (stime f)) TNone (sfill f)).

(** * scaling_factors.kfactor, lines 1942-1989; the objects are series of equal
    shape.  0/0 is NaN. *)
Definition vdiv0 (a b : R) : val := if Req_EM_T b 0 then None else Some (a / b)%R.   (* x/0 for x <> 0 is infinite: cannot happen here (b = 0 forces a = 0) *)
Definition val_of (v : val) : R := match v with Some x => x | None => 0%R end.
Definition kfactor (s1 s2 : sp) : res (arr val * arr bool * arr val * arr val) :=
  do e1 <- sexpand (scopy s1); do t1 <- replace_invalid (Some 0%R) None e1;
  do e2 <- sexpand (scopy s2); do t2 <- replace_invalid (Some 0%R) None e2;
  let d := sdata t1 in
  if negb (shape_eqb d (sdata t2)) then Err ValueError else
  let n := nslice d in
  let idx := seq 0 n in
  let anym i j := existsb (fun b => b) (map (fun t => get (smask t1) i j t || get (smask t2) i j t) idx) in
  let gain := mkarr (rows d) (cols d) None (fun i j _ =>
        if anym i j then Some 0%R
        else match vsum (map (fun t => lift2 Rmult (get d i j t) (get (sdata t2) i j t)) idx),
                   vsum (map (fun t => lift1 (fun x => pow x 2) (get d i j t)) idx) with
             | Some a, Some b => vdiv0 a b | _, _ => None end) in
  do sc <- sscale t1 (VArr gain);
  do va <- offset sc (VArr (amap (lift1 Ropp) (sdata t2)));
  do vs <- ssum 2 va;
  do mg <- ssum 2 t2;
  let err := amap (lift1 (fun x => sqrt (x / INR n))) (sdata vs) in
  let mag := amap (lift1 sqrt) (sdata mg) in
  (* update_mask with fill 0 *)
  let k := mkarr (rows d) (cols d) None (fun i j t => anym i j || veqb (get gain i j t) (Some 0%R) || isnan (get gain i j t)) in
  Ok (masked_set k (Some 0%R) gain, k, masked_set k (Some 0%R) err, masked_set k (Some 0%R) mag).
