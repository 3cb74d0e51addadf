(** Model of gravity_toolkit/geocenter.py, class [geocenter], on time series
    (1-d arrays) of degree 1 coefficients.  Real arithmetic. *)
From Coq Require Import Reals.
From Verif Require Import Base Arr HarmModel.
Close Scope Z_scope.
Open Scope R_scope.

(** None = Python None (or, for the e.. and ..sigma attributes, not defined) *)
Definition vec := option (list R).
Record geo := mkgeo {
  gC10 : vec; gC11 : vec; gS11 : vec;
  eC10 : vec; eC11 : vec; eS11 : vec;
  gX : vec; gY : vec; gZ : vec;
  sX : vec; sY : vec; sZ : vec;
  gtime : tval R; gmonth : tval Z;
  radius : R }.

(** geocenter.py:86-109 constructor; radius in mm (lines 88-91) *)
Definition default_radius : R := 1000 * 6378137 * Rpower (1 - 1 / (298257223563 / 1000000000)) (1 / 3).
Definition new_geo : geo :=
  mkgeo None None None None None None None None None None None None TNone TNone default_radius.

(** array (op) scalar; [None * x] raises TypeError *)
Definition vmap (f : R -> R) (v : vec) : res vec :=
  match v with Some l => Ok (Some (map f l)) | None => Err TypeError end.

(** a try block of three assignments: those before the failing one persist *)
Definition try3 (f : R -> R) (a b c : vec) (oa ob oc : vec) : vec * vec * vec :=
  match a with
  | None => (oa, ob, oc)
  | Some la => match b with
    | None => (Some (map f la), ob, oc)
    | Some lb => match c with
      | None => (Some (map f la), Some (map f lb), oc)
      | Some lc => (Some (map f la), Some (map f lb), Some (map f lc))
      end end end.

(** lines 924-947; order of the assignments: Z, X, Y *)
Definition to_cartesian (kl : R) (g : geo) : geo :=
  let f c := c * radius g * sqrt 3 / (1 + kl) in
  let '(z, x, y) := try3 f (gC10 g) (gC11 g) (gS11 g) (gZ g) (gX g) (gY g) in
  let '(sz, sx, sy) := try3 f (eC10 g) (eC11 g) (eS11 g) (sZ g) (sX g) (sY g) in
  mkgeo (gC10 g) (gC11 g) (gS11 g) (eC10 g) (eC11 g) (eS11 g) x y z sx sy sz (gtime g) (gmonth g) (radius g).

(** lines 998-1018: the first block is not guarded *)
Definition from_cartesian (kl : R) (g : geo) : res geo :=
  let f x := (1 + kl) * x / (radius g * sqrt 3) in
  do c10 <- vmap f (gZ g);
  do c11 <- vmap f (gX g);
  do s11 <- vmap f (gY g);
  let '(e10, e11, es) := try3 f (sZ g) (sX g) (sY g) (eC10 g) (eC11 g) (eS11 g) in
  Ok (mkgeo c10 c11 s11 e10 e11 es (gX g) (gY g) (gZ g) (sX g) (sY g) (sZ g) (gtime g) (gmonth g) (radius g)).

(** in-place multiplication of the three coefficients (raises on None) and of
    the three errors (guarded) *)
Definition inplace (f : R -> R) (g : geo) : res geo :=
  do c10 <- vmap f (gC10 g);
  do c11 <- vmap f (gC11 g);
  do s11 <- vmap f (gS11 g);
  let '(e10, e11, es) := try3 f (eC10 g) (eC11 g) (eS11 g) (eC10 g) (eC11 g) (eS11 g) in
  Ok (mkgeo c10 c11 s11 e10 e11 es (gX g) (gY g) (gZ g) (sX g) (sY g) (sZ g) (gtime g) (gmonth g) (radius g)).
Definition rho_e : R := 5517 / 1000.
Definition rad_e : R := 637100000.
(** lines 949-973, 975-996, 1020-1044, 1046-1067 *)
Definition to_cmwe (kl : R) (g : geo) : res geo := inplace (fun c => c * (rho_e * rad_e / (1 + kl))) g.
Definition to_mmwe (kl : R) (g : geo) : res geo := do r <- to_cmwe kl g; inplace (fun c => c * 10) r.
Definition from_cmwe (kl : R) (g : geo) : res geo := inplace (fun c => c * ((1 + kl) / (rho_e * rad_e))) g.
Definition from_mmwe (kl : R) (g : geo) : res geo := do r <- from_cmwe kl g; inplace (fun c => c / 10) r.

(** lines 783-804 [copy]: a new object with the default radius; the sigma
    attributes are not in the list of copied fields.  (np.copy(None), a 0-d
    object array, is represented by None: arithmetic with either raises
    TypeError.) *)
Definition gcopy (g : geo) : geo :=
  mkgeo (gC10 g) (gC11 g) (gS11 g) (eC10 g) (eC11 g) (eS11 g) (gX g) (gY g) (gZ g)
    None None None (gtime g) (gmonth g) default_radius.

(** lines 829-861 [from_harmonics] on a new object *)
Definition series_of (a : arr R) (l m : nat) : res (list R) :=
  if ((l <? rows a) && (m <? cols a))%nat
  then Ok (map (get a l m) (seq 0 (nslice a)))   (* rank 2: a single value *)
  else Err IndexError.
Definition from_harmonics (h : harm) : res geo :=
  do a <- series_of (clm h) 1 0;
  do b <- series_of (clm h) 1 1;
  do c <- series_of (slm h) 1 1;
  Ok (mkgeo (Some a) (Some b) (Some c) None None None None None None None None None (time h) (month h) default_radius).
(** lines 863-881 [from_matrix]; np.atleast_3d *)
Definition from_matrix (g : geo) (c s : arr R) : res geo :=
  do x <- series_of c 1 0;
  do y <- series_of c 1 1;
  do z <- series_of s 1 1;
  Ok (mkgeo (Some x) (Some y) (Some z) (eC10 g) (eC11 g) (eS11 g) (gX g) (gY g) (gZ g) (sX g) (sY g) (sZ g)
        (gtime g) (gmonth g) (radius g)).
(** assignment of a (1,k) array to a length nt row *)
Definition bcast (nt : nat) (l : list R) : res (nat -> R) :=
  if (length l =? nt)%nat then Ok (fun t => nth t l 0)
  else if (length l =? 1)%nat then Ok (fun _ => nth 0 l 0) else Err ValueError.
Definition need (v : vec) : res (list R) := match v with Some l => Ok l | None => Err TypeError end.
(** lines 909-922 [to_matrix] *)
Definition to_matrix (g : geo) : res (arr R * arr R) :=
  do a <- need (gC10 g);
  do b <- need (gC11 g);
  do c <- need (gS11 g);
  let nt := length a in
  do fa <- bcast nt a;
  do fb <- bcast nt b;
  do fc <- bcast nt c;
  Ok (mkarr 2 2 (Some nt) (fun l m t => if ((l =? 1) && (m =? 0))%nat then fa t
                                        else if ((l =? 1) && (m =? 1))%nat then fb t else 0),
      mkarr 2 2 (Some nt) (fun l m t => if ((l =? 1) && (m =? 1))%nat then fc t else 0)).

(** in-place [a op= b] with broadcasting *)
Definition vop (op : R -> R -> R) (a b : vec) : res vec :=
  do la <- need a;
  do lb <- need b;
  if (length lb =? length la)%nat then Ok (Some (map (fun p => op (fst p) (snd p)) (combine la lb)))
  else if (length lb =? 1)%nat then Ok (Some (map (fun x => op x (nth 0 lb 0)) la))
  else Err ValueError.
(** lines 1101-1155 *)
Definition gop (op : R -> R -> R) (g t : geo) : res geo :=
  do a <- vop op (gC10 g) (gC10 t);
  do b <- vop op (gC11 g) (gC11 t);
  do c <- vop op (gS11 g) (gS11 t);
  Ok (mkgeo a b c (eC10 g) (eC11 g) (eS11 g) (gX g) (gY g) (gZ g) (sX g) (sY g) (sZ g) (gtime g) (gmonth g) (radius g)).
Definition gadd := gop Rplus.
Definition gsub := gop Rminus.
Definition gmul := gop Rmult.
Definition gdiv := gop Rdiv.

(** lines 1069-1099 [mean]: indices None = Ellipsis.  Result: object after the
    call and the three means *)
Definition pick (l : list R) (indices : option (list nat)) : res (list R) :=
  match indices with
  | None => match l with [] => Err OtherExn | _ => Ok l end
  | Some idx => if forallb (fun i => i <? length l)%nat idx
                then match idx with [] => Err OtherExn | _ => Ok (map (fun i => nth i l 0) idx) end   (* nan *)
                else Err IndexError
  end.
Definition gmean (g : geo) (apply : bool) (indices : option (list nat)) : res (geo * (R * R * R)) :=
  do a <- need (gC10 g); do pa <- pick a indices;
  do b <- need (gC11 g); do pb <- pick b indices;
  do c <- need (gS11 g); do pc <- pick c indices;
  let m1 := Rmean pa in let m2 := Rmean pb in let m3 := Rmean pc in
  Ok (if apply then mkgeo (Some (map (fun x => x - m1) a)) (Some (map (fun x => x - m2) b)) (Some (map (fun x => x - m3) c))
                 (eC10 g) (eC11 g) (eS11 g) (gX g) (gY g) (gZ g) (sX g) (sY g) (sZ g) (gtime g) (gmonth g) (radius g)
      else g, (m1, m2, m3)).

(** lines 1157-1190 [scale], [power] (natural exponent): new objects *)
Definition gmapnew (f : R -> R) (g : geo) : res geo :=
  do a <- vmap f (gC10 g); do b <- vmap f (gC11 g); do c <- vmap f (gS11 g);
  Ok (mkgeo a b c None None None None None None None None None (gtime g) (gmonth g) default_radius).
Definition gscale (v : R) := gmapnew (fun x => v * x).
Definition gpower (p : nat) := gmapnew (fun x => x ^ p).
