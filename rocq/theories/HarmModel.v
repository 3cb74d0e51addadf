(** Model of gravity_toolkit/harmonics.py, class [harmonics].
    Coefficients are real numbers (float rounding not modelled).  [filename] and
    [attributes] are not modelled.  [l] and [m] (np.arange(lmax+1),
    np.arange(mmax+1)) are functions of lmax, mmax after update_dimensions and are
    therefore not stored. *)
From Coq Require Import Reals.
From Verif Require Import Base TimeModel Arr.
Close Scope Z_scope.
Open Scope nat_scope.

(** attribute [time] / [month]: None, a scalar (0-d) or an array *)
Inductive tval (A : Type) := TNone | TScalar (x : A) | TArr (l : list A).
Arguments TNone {A}. Arguments TScalar {A}. Arguments TArr {A}.

Record harm := mkharm {
  lmax : nat; mmax : nat;
  clm : arr R; slm : arr R;
  time : tval R; month : tval Z
}.

(** the invariant the class establishes in its constructors: both arrays have
    shape (lmax+1, mmax+1[, n]) and time/month have length n *)
Definition wf (h : harm) : Prop :=
  rows (clm h) = lmax h + 1 /\ cols (clm h) = mmax h + 1 /\ same_shape (clm h) (slm h) /\
  match depth (clm h) with
  | None => True
  | Some n => exists ts ms, time h = TArr ts /\ month h = TArr ms /\ length ts = n /\ length ms = n
  end.

(** harmonics.py:1866-1875 [ndim] *)
Definition ndim (h : harm) : nat := match depth (clm h) with None => 2 | Some _ => 3 end.

(** [enumerate(self.time)] : number of loop passes, TypeError on None / 0-d *)
Definition tlen {A} (t : tval A) : res nat :=
  match t with TArr l => Ok (length l) | _ => Err TypeError end.

(** lines 1218-1219 (also 1244-1245, 1270-1271, 1296-1297): common block *)
Definition common (a b : nat) : nat := if a <? b then a + 1 else b + 1.

(** in-place block operation [a[:l1,:m1(,:)] op= b[:l1,:m1(,:)]] with numpy
    broadcasting of the last axis; rank 2 target with rank 3 operand raises *)
Definition block_op (op : R -> R -> R) (l1 m1 : nat) (a b : arr R) : res (arr R) :=
  match depth a, depth b with
  | None, None => Ok (set_block a 0 l1 m1 (fun l m t => op (get a l m t) (get b l m t)))
  | Some n, Some k =>
      if k =? n then Ok (set_block a 0 l1 m1 (fun l m t => op (get a l m t) (get b l m t)))
      else if k =? 1 then Ok (set_block a 0 l1 m1 (fun l m t => op (get a l m t) (get b l m 0)))
      else Err ValueError
  | _, _ => Err ValueError
  end.

(** rank 3 target, rank 2 operand: the loop over [enumerate(self.time)]
    (lines 1224-1226); an index beyond the last axis raises *)
Definition loop_op (op : R -> R -> R) (l1 m1 n : nat) (a b : arr R) : res (arr R) :=
  match depth a with
  | None => Err IndexError
  | Some d => if n <=? d
      then Ok (mkarr (rows a) (cols a) (depth a)
             (fun l m t => if (l <? l1) && (m <? m1) && (t <? n) then op (get a l m t) (get b l m 0)
                           else get a l m t))
      else Err IndexError
  end.

Definition binop (op : R -> R -> R) (self temp : harm) : res harm :=
  let l1 := common (lmax self) (lmax temp) in
  let m1 := common (mmax self) (mmax temp) in
  if (ndim self =? 3) && (ndim temp =? 2) then
    do n <- tlen (time self);
    do c <- loop_op op l1 m1 n (clm self) (clm temp);
    do s <- loop_op op l1 m1 n (slm self) (slm temp);
    Ok (mkharm (lmax self) (mmax self) c s (time self) (month self))
  else
    do c <- block_op op l1 m1 (clm self) (clm temp);
    do s <- block_op op l1 m1 (slm self) (slm temp);
    Ok (mkharm (lmax self) (mmax self) c s (time self) (month self)).

(** lines 1206-1230, 1232-1256, 1258-1282 *)
Definition add := binop Rplus.
Definition subtract := binop Rminus.
Definition multiply := binop Rmult.

(** lines 1284-1313 [divide]: only entries listed by
    [np.tril_indices(l1, m=m1)] (i.e. m <= l), sine terms only for m <> 0.
    Division by zero is not represented (numpy gives inf/nan). *)
Definition tri_op (op : R -> R -> R) (skip0 : bool) (l1 m1 : nat) (a : arr R) (f : nat -> nat -> nat -> R)
    (tsel : nat -> bool) : arr R :=
  mkarr (rows a) (cols a) (depth a)
    (fun l m t => if (l <? l1) && (m <? m1) && (m <=? l) && (negb skip0 || negb (m =? 0)) && tsel t
                  then op (get a l m t) (f l m t) else get a l m t).

Definition divide_arr (skip0 : bool) (l1 m1 : nat) (n : res nat) (a b : arr R) : res (arr R) :=
  match depth a, depth b with
  | None, None => Ok (tri_op Rdiv skip0 l1 m1 a (fun l m t => get b l m t) (fun _ => true))
  | Some d, None =>
      do k <- n;
      if k <=? d then Ok (tri_op Rdiv skip0 l1 m1 a (fun l m _ => get b l m 0) (fun t => t <? k))
      else Err IndexError
  | Some d, Some k =>
      if k =? d then Ok (tri_op Rdiv skip0 l1 m1 a (fun l m t => get b l m t) (fun _ => true))
      else if k =? 1 then Ok (tri_op Rdiv skip0 l1 m1 a (fun l m _ => get b l m 0) (fun _ => true))
      else Err ValueError
  | None, Some _ => Err ValueError
  end.

Definition divide (self temp : harm) : res harm :=
  let l1 := common (lmax self) (lmax temp) in
  let m1 := common (mmax self) (mmax temp) in
  do c <- divide_arr false l1 m1 (tlen (time self)) (clm self) (clm temp);
  do s <- divide_arr true l1 m1 (tlen (time self)) (slm self) (slm temp);
  Ok (mkharm (lmax self) (mmax self) c s (time self) (month self)).

(** lines 1336-1359 [zeros] *)
Definition zeros (L M : nat) (nt : option nat) (t : tval R) (mo : tval Z) : harm :=
  match nt with
  | Some n => mkharm L M (full (L + 1) (M + 1) (Some n) 0%R) (full (L + 1) (M + 1) (Some n) 0%R)
                (TArr (repeat 0%R n)) (TArr (repeat 0%Z n))
  | None => mkharm L M (full (L + 1) (M + 1) None 0%R) (full (L + 1) (M + 1) None 0%R) t mo
  end.

(** [np.atleast_1d]; atleast_1d(None) is array([None]), not represented *)
Definition atleast_1d {A} (t : tval A) : tval A :=
  match t with TScalar x => TArr [x] | _ => t end.
(** [np.squeeze] *)
Definition tsqueeze {A} (t : tval A) : tval A :=
  match t with TArr [x] => TScalar x | _ => t end.

(** lines 1377-1400 [expand_dims] (not flattened) *)
Definition aexpand (a : arr R) : arr R :=
  match depth a with
  | None => mkarr (rows a) (cols a) (Some 1) (fun l m _ => get a l m 0)
  | Some _ => a
  end.
Definition expand_dims (h : harm) : harm :=
  mkharm (lmax h) (mmax h) (aexpand (clm h)) (aexpand (slm h)) (atleast_1d (time h)) (atleast_1d (month h)).

(** lines 1402-1425 [squeeze] with update_dimensions=True.
    [np.squeeze(clm, axis=-1)] raises ValueError when the last axis is not 1, and
    the except clause then leaves everything alone.  For a rank 2 array the last
    axis is the order axis: it has length 1 iff mmax=0; the resulting rank 1 array
    is outside this model, so that case is excluded (OtherExn). *)
Definition squeeze (h : harm) : res harm :=
  match depth (clm h) with
  | Some 1 => Ok (mkharm (lmax h) (mmax h) (slice (clm h) 0) (slice (slm h) 0) (tsqueeze (time h)) (tsqueeze (month h)))
  | Some _ => Ok h
  | None => if cols (clm h) =? 1 then Err OtherExn else Ok h
  end.

(** lines 1427-1474 [flatten] *)
Record flat := mkflat {
  f_lmax : nat; f_mmax : nat;
  f_l : list nat; f_m : list nat;
  f_depth : option nat;
  f_clm : list (nat -> R); f_slm : list (nat -> R);   (* one entry per harmonic, a function of time index *)
  f_time : tval R; f_month : tval Z
}.

(** lines 1436-1437: the number of harmonics, Python integer arithmetic *)
Definition n_harm (L M : nat) : Z :=
  let l := Z.of_nat L in let m := Z.of_nat M in
  ((l * l + 3 * l - (l - m) * (l - m) - (l - m)) / 2 + 1)%Z.

(** lines 1459-1460: the double loop, m outer, l inner *)
Definition lm_loop (L M : nat) : list (nat * nat) :=
  flat_map (fun m => map (fun l => (l, m)) (seq m (L + 1 - m))) (seq 0 (M + 1)).

(** lines 1458-1470: write successive entries, IndexError beyond the end *)
Fixpoint fill {A} (vec : list A) (k : nat) (vals : list A) : res (list A) :=
  match vals with
  | [] => Ok vec
  | v :: t => if k <? length vec then fill (upd vec k v) (S k) t else Err IndexError
  end.

Definition flatten (date : bool) (h : harm) : res flat :=
  let n := Z.to_nat (n_harm (lmax h) (mmax h)) in   (* np.zeros of a negative size raises; see guard *)
  if (n_harm (lmax h) (mmax h) <? 0)%Z then Err ValueError else
  let lp := lm_loop (lmax h) (mmax h) in
  do ls <- fill (repeat 0 n) 0 (map fst lp);
  do ms <- fill (repeat 0 n) 0 (map snd lp);
  do cs <- fill (repeat (fun _ => 0%R) n) 0 (map (fun p => fun t => get (clm h) (fst p) (snd p) t) lp);
  do ss <- fill (repeat (fun _ => 0%R) n) 0 (map (fun p => fun t => get (slm h) (fst p) (snd p) t) lp);
  Ok (mkflat (lmax h) (mmax h) ls ms (depth (clm h)) cs ss
        (if date then time h else TNone) (if date then month h else TNone)).

(** lines 1476-1519 [expand] *)
Fixpoint scatter (ls ms : list nat) (vals : list (nat -> R)) (a : arr R) : res (arr R) :=
  match ls, ms, vals with
  | l :: ls', m :: ms', v :: vs' =>
      if (l <? rows a) && (m <? cols a) then scatter ls' ms' vs' (set_lm a l m v) else Err IndexError
  | [], _, _ => Ok a
  | _, _, _ => Err IndexError
  end.

Definition expand (date : bool) (f : flat) : res harm :=
  do c <- scatter (f_l f) (f_m f) (f_clm f) (full (f_lmax f + 1) (f_mmax f + 1) (f_depth f) 0%R);
  do s <- scatter (f_l f) (f_m f) (f_slm f) (full (f_lmax f + 1) (f_mmax f + 1) (f_depth f) 0%R);
  Ok (mkharm (f_lmax f) (f_mmax f) c s (if date then f_time f else TNone) (if date then f_month f else TNone)).

(** Python index into a length-n axis *)
Definition py_index (n : nat) (i : Z) : res nat :=
  let k := if (i <? 0)%Z then (i + Z.of_nat n)%Z else i in
  if ((0 <=? k) && (k <? Z.of_nat n))%Z then Ok (Z.to_nat k) else Err IndexError.
Definition tget {A} (t : tval A) (i : Z) : res A :=
  match t with TArr l => py_get l i | TScalar _ => Err IndexError | TNone => Err TypeError end.

(** lines 1521-1550 [index] *)
Definition index (h : harm) (i : Z) : res harm :=
  match depth (clm h) with
  | None => Err IndexError
  | Some n =>
      do k <- py_index n i;
      do t <- tget (time h) i;
      do mo <- tget (month h) i;
      Ok (mkharm (lmax h) (mmax h) (slice (clm h) k) (slice (slm h) k) (TScalar t) (TScalar mo))
  end.

(** lines 1552-1595 [subset]; [months] after np.atleast_1d *)
Definition list_of {A} (t : tval A) : res (list A) :=
  match t with TArr l => Ok l | _ => Err TypeError end.

(** lines 1581-1585: loop over months_list with running index t; an index t
    beyond the n allocated slices raises *)
Fixpoint gather (h : harm) (ts : list R) (ms : list Z) (idx : list nat) (t : nat) (acc : harm) : res harm :=
  match idx with
  | [] => Ok acc
  | i :: rest =>
      let d := nslice (clm acc) in
      if t <? d then
        do ti <- py_get ts (Z.of_nat i);
        do mi <- py_get ms (Z.of_nat i);
        match time acc, month acc with
        | TArr at_, TArr am =>
          gather h ts ms rest (S t)
            (mkharm (lmax acc) (mmax acc)
              (set_slice (clm acc) t (fun l m => get (clm h) l m i))
              (set_slice (slm acc) t (fun l m => get (slm h) l m i))
              (TArr (upd at_ t ti)) (TArr (upd am t mi)))
        | _, _ => Err TypeError
        end
      else Err IndexError
  end.

Definition memZ (x : Z) (l : list Z) : bool := existsb (Z.eqb x) l.

Definition subset (h : harm) (months : list Z) : res harm :=
  do ts <- list_of (time h);
  do ms <- list_of (month h);
  let n := length months in
  if existsb (fun x => negb (memZ x ms)) months then Err IOErr
  else
    let months_list := filter (fun i => memZ (nth i ms 0%Z) months) (seq 0 (length ms)) in
    do r <- gather h ts ms months_list 0 (zeros (lmax h) (mmax h) (Some n) TNone TNone);
    squeeze r.

(** lines 1597-1637 [truncate]; [a : option nat] are the arguments lmax, mmax
    (None = Python None); lmin >= 0. *)
Definition trunc_arr (L M lmin l1 m1 : nat) (a : arr R) : arr R :=
  set_block (full (L + 1) (M + 1) (depth a) 0%R) lmin l1 m1 (fun l m t => get a l m t).
Definition truncate (h : harm) (lmax_arg : option nat) (lmin : nat) (mmax_arg : option nat) : harm :=
  let L := match lmax_arg with None => lmax h | Some x => x end in
  let marg := match mmax_arg with None => L | Some x => x end in
  let M := if marg =? 0 then L else marg in             (* line 1617: truthiness *)
  let l1 := if L <? lmax h then L + 1 else lmax h + 1 in
  let m1 := if M <? mmax h then M + 1 else mmax h + 1 in
  mkharm L M (trunc_arr L M lmin l1 m1 (clm h)) (trunc_arr L M lmin l1 m1 (slm h)) (time h) (month h).

(** lines 1639-1675 [mean]; [indices]: None = Ellipsis, otherwise a list of
    indices.  np.mean of an empty selection (nan) is represented by an error. *)
Fixpoint Rsum (l : list R) : R := match l with [] => 0%R | x :: t => (x + Rsum t)%R end.
Definition Rmean (l : list R) : R := (Rsum l / INR (length l))%R.

Definition mean_val (a : arr R) (idx : list nat) (l m : nat) : R := Rmean (map (get a l m) idx).
(** lines 1655-1664 as loop over (l,m) *)
Definition mean_arr (L M : nat) (a : arr R) (idx : list nat) : arr R :=
  fold_left (fun acc p => set_lm acc (fst p) (snd p) (fun _ => mean_val a idx (fst p) (snd p)))
    (lm_loop L M) (full (L + 1) (M + 1) None 0%R).
Definition demean_arr (L M : nat) (a : arr R) (idx : list nat) : arr R :=
  fold_left (fun acc p => set_lm acc (fst p) (snd p)
      (fun t => (get acc (fst p) (snd p) t - mean_val acc idx (fst p) (snd p))%R))
    (lm_loop L M) a.
Definition tmean (idx : list nat) (t : tval R) : tval R :=
  match t with
  | TArr l => if forallb (fun i => i <? length l) idx then TScalar (Rmean (map (fun i => nth i l 0%R) idx)) else TNone
  | _ => TNone     (* the bare except: attribute stays None *)
  end.
Definition tmap {A B} (f : A -> B) (t : tval A) : tval B :=
  match t with TNone => TNone | TScalar x => TScalar (f x) | TArr l => TArr (map f l) end.

(** result: (object after the call, returned mean field, mean time, mean month) *)
Definition mean (h : harm) (apply : bool) (indices : option (list nat)) :
    res (harm * (arr R * arr R * tval R * tval R)) :=
  match depth (clm h) with
  | None => (* rank 2: [self.clm[l,m,...]] is the entry itself; [self.clm[l,m,:]] or a
               list of indices raises.  The time/month attributes of the result are
               taken over (numpy scalars) *)
      match apply, indices with
      | false, None => Ok (h, (mean_arr (lmax h) (mmax h) (clm h) [0], mean_arr (lmax h) (mmax h) (slm h) [0],
                               time h, tmap IZR (month h)))
      | _, _ => Err IndexError
      end
  | Some n =>
      let idx := match indices with None => seq 0 n | Some l => l end in
      if negb (forallb (fun i => i <? n) idx) then Err IndexError
      else if length idx =? 0 then Err OtherExn   (* nan *)
      else
      let L := lmax h in let M := mmax h in
      let mc := mean_arr L M (clm h) idx in
      let ms := mean_arr L M (slm h) idx in
      let h' := if apply
                then mkharm L M (demean_arr L M (clm h) idx) (demean_arr L M (slm h) idx) (time h) (month h)
                else h in
      Ok (h', (mc, ms, tmean idx (time h), tmean idx (tmap IZR (month h))))
  end.

(** lines 1677-1710 [scale] *)
Inductive svar := SScalar (v : R) | SArr (vs : list R).
Definition scale (h : harm) (v : svar) : res harm :=
  match v with
  | SScalar x => Ok (mkharm (lmax h) (mmax h) (amap (Rmult x) (clm h)) (amap (Rmult x) (slm h)) (time h) (month h))
  | SArr vs =>
      match depth (clm h) with
      | None => Ok (mkharm (lmax h) (mmax h)
          (mkarr (lmax h + 1) (mmax h + 1) (Some (length vs)) (fun l m t => (nth t vs 0 * get (clm h) l m 0)%R))
          (mkarr (lmax h + 1) (mmax h + 1) (Some (length vs)) (fun l m t => (nth t vs 0 * get (slm h) l m 0)%R))
          (time h) (month h))
      | Some _ => (* lines 1704-1707: temp.clm is None: item assignment raises TypeError
                     unless the loop is empty, and then temp.clm stays None *)
          match vs with [] => Err OtherExn | _ => Err TypeError end
      end
  end.

(** lines 1712-1734 [power], integer exponent >= 0 *)
Definition power (h : harm) (p : nat) : harm :=
  mkharm (lmax h) (mmax h) (amap (fun x => pow x p) (clm h)) (amap (fun x => pow x p) (slm h)) (time h) (month h).

(** lines 1736-1767 [drift] on a rank 2 field; [months] is the value
    adjust_months(calendar_to_grace(t)) (C02, C03), passed in because float times
    are modelled by reals here *)
Definition drift (h : harm) (t : list R) (epoch : R) (months : list Z) : res harm :=
  match depth (clm h) with
  | None => Ok (mkharm (lmax h) (mmax h)
      (mkarr (lmax h + 1) (mmax h + 1) (Some (length t)) (fun l m i => (get (clm h) l m 0 * (nth i t 0 - epoch))%R))
      (mkarr (lmax h + 1) (mmax h + 1) (Some (length t)) (fun l m i => (get (slm h) l m 0 * (nth i t 0 - epoch))%R))
      (TArr t) (TArr months))
  | Some _ => Err ValueError
  end.

(** lines 1769-1791 [convolve]: loop over degrees; var[l] raises IndexError when
    too short.  (On that exception the degrees already processed stay scaled;
    the model returns only the exception.) *)
Definition conv_arr (n : option nat) (L : nat) (var : list R) (a : arr R) : arr R :=
  fold_left (fun acc l0 => mkarr (rows acc) (cols acc) (depth acc)
      (fun l m t => if (l =? l0) && match n with None => true | Some k => t <? k end
                    then (get acc l m t * nth l0 var 0)%R else get acc l m t))
    (seq 0 (L + 1)) a.
Definition convolve (h : harm) (var : list R) : res harm :=
  match depth (clm h) with
  | None =>
      if length var <? lmax h + 1 then Err IndexError
      else Ok (mkharm (lmax h) (mmax h) (conv_arr None (lmax h) var (clm h)) (conv_arr None (lmax h) var (slm h)) (time h) (month h))
  | Some d =>
      do n <- tlen (time h);
      if n =? 0 then Ok h
      else if length var <? lmax h + 1 then Err IndexError
      else if d <? n then Err IndexError
      else Ok (mkharm (lmax h) (mmax h) (conv_arr (Some n) (lmax h) var (clm h)) (conv_arr (Some n) (lmax h) var (slm h)) (time h) (month h))
  end.

(** lines 622-680 [from_list] with date=True.  [argsort] is np.argsort of the
    times (unstable sort: any sorting permutation); [sort=False] is the identity. *)
Definition list_min (l : list nat) : res nat :=
  match l with [] => Err ValueError | x :: t => Ok (fold_left Nat.min t x) end.
Definition scalar {A} (t : tval A) : res A :=
  match t with TScalar x => Ok x | TArr [x] => Ok x | _ => Err ValueError end.
Fixpoint load_list (objs : list harm) (order : list nat) (t : nat) (c s : arr R) (ts : list R) (ms : list Z)
    : res (arr R * arr R * list R * list Z) :=
  match order with
  | [] => Ok (c, s, ts, ms)
  | i :: rest =>
      match nth_error objs i with
      | None => Err IndexError
      | Some o =>
          match depth (clm o) with
          | Some _ => Err ValueError
          | None =>
            do ti <- scalar (time o);
            do mi <- scalar (month o);
            load_list objs rest (S t)
              (set_slice c t (fun l m => get (clm o) l m 0)) (set_slice s t (fun l m => get (slm o) l m 0))
              (upd ts t ti) (upd ms t mi)
          end
      end
  end.
Definition from_list (order : list nat) (objs : list harm) : res harm :=
  let n := length objs in
  do L <- list_min (map lmax objs);
  do M <- list_min (map mmax objs);
  do r <- load_list objs order 0 (full (L + 1) (M + 1) (Some n) 0%R) (full (L + 1) (M + 1) (Some n) 0%R)
            (repeat 0%R n) (repeat 0%Z n);
  let '(c, s, ts, ms) := r in
  Ok (mkharm L M c s (TArr ts) (tsqueeze (TArr (adjust_months ms)))).  (* time.py:387 np.squeeze *)

(** lines 1901-1930 iterator protocol; the cursor lives in the object *)
Record hobj := mkhobj { ob : harm; cursor : nat }.
Definition iter_start (o : hobj) : hobj := mkhobj (ob o) 0.
(** None = StopIteration *)
Definition iter_next (o : hobj) : res (option (harm * hobj)) :=
  let h := ob o in
  match depth (clm h) with
  | None => Ok None
  | Some n =>
      if cursor o <? n then
        do t <- tget (time h) (Z.of_nat (cursor o));
        do mo <- tget (month h) (Z.of_nat (cursor o));
        Ok (Some (mkharm (lmax h) (mmax h) (slice (clm h) (cursor o)) (slice (slm h) (cursor o)) (TScalar t) (TScalar mo),
                  mkhobj h (S (cursor o))))
      else Ok None
  end.
(** the for statement: at most [fuel] passes; None = fuel exhausted *)
Fixpoint for_loop (fuel : nat) (o : hobj) (acc : list harm) : res (option (list harm * hobj)) :=
  match fuel with
  | O => Ok None
  | S k => do r <- iter_next o;
           match r with None => Ok (Some (acc, o)) | Some (x, o') => for_loop k o' (acc ++ [x]) end
  end.

(** lines 1157-1183 [to_masked_array]: data and mask after the double loop.
    Columns lmax+m with m in -mmax..mmax; for mmax > lmax the column index can be
    negative (wraps in Python) - excluded by mmax <= lmax in the theorems. *)
Definition signed_loop (L M : nat) : list (nat * Z) :=
  flat_map (fun k : nat => let m := (Z.of_nat k - Z.of_nat M)%Z in
     map (fun l => (l, m)) (seq (Z.abs_nat m) (L + 1 - Z.abs_nat m))) (seq 0 (2 * M + 1)).
Definition ma_step (h : harm) (acc : arr R * arr bool) (p : nat * Z) : arr R * arr bool :=
  let '(d, k) := acc in let '(l, m) := p in
  let col := Z.to_nat (Z.of_nat (lmax h) + m) in
  let mm := Z.abs_nat m in
  (set_lm d l col (fun t => if (m <? 0)%Z then get (aexpand (slm h)) l mm t else get (aexpand (clm h)) l mm t),
   set_lm k l col (fun _ => false)).
Definition to_masked_array (h : harm) : arr R * arr bool :=
  let nt := nslice (aexpand (clm h)) in
  fold_left (ma_step h) (signed_loop (lmax h) (mmax h))
    (full (lmax h + 1) (2 * lmax h + 1) (Some nt) 0%R, full (lmax h + 1) (2 * lmax h + 1) (Some nt) true).

(** lines 1832-1858 [amplitude] computed afresh *)
Definition amplitude_now (h : harm) (l t : nat) : R :=
  sqrt (Rsum (map (fun m => (pow (get (clm h) l m t) 2 + pow (get (slm h) l m t) 2)%R) (seq 0 (mmax h + 1)))).

(** * the reify descriptor (utilities.py:156-169) applied to [amplitude]
    (harmonics.py:1830-1858): the first read stores the value in the instance,
    later reads find the stored attribute and never call the method again. *)
Record cached := mkcached { cobj : harm; camp : option (nat -> nat -> R) }.
Definition construct (h : harm) : cached := mkcached h None.
Definition read_amplitude (o : cached) : (nat -> nat -> R) * cached :=
  match camp o with
  | Some v => (v, o)
  | None => let v := amplitude_now (cobj o) in (v, mkcached (cobj o) (Some v))
  end.
(** any assignment to / in-place change of the coefficients *)
Definition change (f : harm -> harm) (o : cached) : cached := mkcached (f (cobj o)) (camp o).
(** lines 1315-1334 [copy]: only clm, slm, time, month, filename are carried over *)
Definition copy_cached (o : cached) : cached := mkcached (cobj o) None.

(** * ascii files, lines 750-779 [to_ascii] and 215-292 [from_ascii].
    A line is (degree, order, cosine, sine, other numbers).  Text formatting and
    the regular expression are not modelled: [rd] is "print with 12 digits after
    the point and parse", [rt] the same with '{4:10.4f}' for the time, [grace] is
    calendar_to_grace on a decimal year.  Only rank 2 objects can be printed. *)
Record line := mkline { ln_l : nat; ln_m : nat; ln_c : R; ln_s : R; ln_aux : list R }.
Definition to_ascii (rd rt : R -> R) (date : bool) (h : harm) : res (list line) :=
  match depth (clm h) with
  | Some _ => Err TypeError                       (* formatting an array *)
  | None =>
    if date then
      match time h with
      | TScalar t => Ok (map (fun p => mkline (fst p) (snd p) (rd (get (clm h) (fst p) (snd p) 0))
                            (rd (get (slm h) (fst p) (snd p) 0)) [rt t]) (lm_loop (lmax h) (mmax h)))
      | _ => Err TypeError
      end
    else Ok (map (fun p => mkline (fst p) (snd p) (rd (get (clm h) (fst p) (snd p) 0))
                            (rd (get (slm h) (fst p) (snd p) 0)) []) (lm_loop (lmax h) (mmax h)))
  end.
(** lines 263-271 *)
Definition scan_max (sel : line -> nat) (ls : list line) : nat :=
  fold_left (fun acc x => if acc <? sel x then sel x else acc) ls 0.
(** lines 272-292; [aux] after the first loop is that of the last line *)
Definition from_ascii (grace : R -> Z) (date : bool) (ls : list line) : res harm :=
  let L := scan_max ln_l ls in
  let M := scan_max ln_m ls in
  let c := fold_left (fun acc x => set_lm acc (ln_l x) (ln_m x) (fun _ => ln_c x)) ls (full (L + 1) (M + 1) None 0%R) in
  let s := fold_left (fun acc x => set_lm acc (ln_l x) (ln_m x) (fun _ => ln_s x)) ls (full (L + 1) (M + 1) None 0%R) in
  if date then
    match rev ls with
    | [] => Err UnboundLocalError
    | x :: _ => match ln_aux x with
                | [] => Err IndexError
                | t :: _ => Ok (mkharm L M c s (TScalar t) (tsqueeze (TArr (adjust_months [grace t]))))
                end
    end
  else Ok (mkharm L M c s TNone TNone).

(** * netCDF4 / HDF5 files with date=True, lines 781-925/927-1066 (write) and
    295-384/386-470 (read).  The file stores the flattened variables l, m, clm,
    slm, time, month exactly (the libraries are trusted). *)
Definition to_nc (h : harm) : res flat :=
  do f <- flatten true h;
  Ok (mkflat (f_lmax f) (f_mmax f) (f_l f) (f_m f)
        (match f_depth f with None => Some 1 | d => d end)      (* expand_dims of the flattened object *)
        (match f_depth f with None => map (fun g (_ : nat) => g 0) (f_clm f) | _ => f_clm f end)
        (match f_depth f with None => map (fun g (_ : nat) => g 0) (f_slm f) | _ => f_slm f end)
        (atleast_1d (f_time f)) (atleast_1d (f_month f))).
Definition nat_max (l : list nat) : res nat :=
  match l with [] => Err ValueError | x :: t => Ok (fold_left Nat.max t x) end.
Definition from_nc (f : flat) : res harm :=
  do L <- nat_max (f_l f);
  do M <- nat_max (f_m f);
  do h <- expand true (mkflat L M (f_l f) (f_m f) (f_depth f) (f_clm f) (f_slm f) (f_time f) (f_month f));
  match month h with
  | TArr ms => squeeze (mkharm (lmax h) (mmax h) (clm h) (slm h) (time h) (tsqueeze (TArr (adjust_months ms))))
  | _ => Err TypeError
  end.
