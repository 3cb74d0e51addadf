(** Model of class [units] (gravity_toolkit/units.py).  Float arithmetic is exact
    real arithmetic (no rounding, no overflow); a division by zero, which numpy
    turns into inf/nan, is Coq's [/ 0]: theorems that divide assume the divisor
    is not zero. *)
From Coq Require Import Reals Lra String.
From Verif Require Import Base.
Close Scope Z_scope.
Open Scope R_scope.

(** units.py 53-94: the object.  Degree dependent factors are None until set. *)
Record units := mkunits {
  lmax : option nat; a_axis : R; flat : R;
  norm : option (list R); cmwe : option (list R); mmwe : option (list R); mmGH : option (list R);
  mmCU : option (list R); mmCH : option (list R); cmVCU : option (list R); mVCU : option (list R);
  microGal : option (list R); mbar : option (list R); Pa : option (list R) }.

(** units.py 60-75: constants (cgs units) *)
Definition G : R := 667430 / 10 ^ 13.
Definition GM_e : R := 3986004418 * 10 ^ 11.
Definition GM_atm : R := 35 * 10 ^ 13.
Definition GM : R := GM_e - GM_atm.
Definition g_wmo : R := 980665 / 1000.

(** units.py 53-96 [__init__] with its default arguments *)
Definition units_init (lm : option nat) (a f : R) : units :=
  mkunits lm a f None None None None None None None None None None None.
Definition a_default : R := 637813700.
Definition flat_default : R := 1 / (298257223563 / 10 ^ 9).

(** units.py 98-120 properties *)
Definition b_axis (u : units) : R := (1 - flat u) * a_axis u.
Definition rad_e (u : units) : R := a_axis u * Rpower (1 - flat u) (1 / 3).
Definition rho_e (u : units) : R := 75 / 100 * GM / (G * PI * rad_e u ^ 3).
Definition mass (u : units) : R := 4 / 3 * PI * rho_e u * rad_e u ^ 3.

(** [x[np.arange(n)]] on a 1-d array: IndexError when an index is out of range *)
Definition take_idx (x : list R) (n : nat) : res (list R) :=
  if (n <=? List.length x)%nat then Ok (firstn n x) else Err IndexError.

(** array indexed by degree 0..n-1 *)
Definition tab (n : nat) (f : nat -> R) : list R := map f (seq 0 n).

(** units.py 164-171 (and 228-232): the "fraction" array of a call *)
Definition fraction (n : nat) (kl : list R) (elastic ellipsoidal : bool) (fl : R) : res (list R) :=
  do k <- (if elastic then take_idx kl n else Ok (repeat 0 n));
  Ok (map (fun x => if ellipsoidal then (1 + x) / (1 - fl) else 1 + x) k).

(** units.py 122-197 [harmonic] *)
Definition harmonic (hl kl ll : list R) (elastic ellipsoidal : bool) (u : units) : res units :=
  match lmax u with
  | None => Err TypeError                                   (* None + 1 *)
  | Some lm =>
    let n := S lm in
    do fr <- fraction n kl elastic ellipsoidal (flat u);
    do h <- take_idx hl n;
    do l_ <- take_idx ll n;
    let F := fun l => nth l fr 0 in
    let L := fun l => 2 * INR l + 1 in
    Ok (mkunits (lmax u) (a_axis u) (flat u)
      (Some (tab n (fun _ => 1)))
      (Some (tab n (fun l => rho_e u * rad_e u * L l / F l / 3)))
      (Some (tab n (fun l => 10 * rho_e u * rad_e u * L l / F l / 3)))
      (Some (tab n (fun _ => 1 * (10 * rad_e u))))
      (Some (tab n (fun l => 10 * rad_e u * nth l h 0 / F l)))
      (Some (tab n (fun l => 10 * rad_e u * nth l l_ 0 / F l)))
      (Some (tab n (fun l => rad_e u * L l / 2)))
      (Some (tab n (fun l => rad_e u * L l / 200)))
      (Some (tab n (fun l => 10 ^ 6 * GM * (INR l + 1) / (rad_e u ^ 2))))
      (Some (tab n (fun l => g_wmo * rho_e u * rad_e u * L l / F l / (3 * 10 ^ 3))))
      (Some (tab n (fun l => g_wmo * rho_e u * rad_e u * L l / F l / 30))))
  end.

(** units.py 199-247 [spatial]: hl and ll are not used; only five attributes are set *)
Definition spatial (hl kl ll : list R) (elastic : bool) (u : units) : res units :=
  match lmax u with
  | None => Err TypeError
  | Some lm =>
    let n := S lm in
    do fr <- fraction n kl elastic false (flat u);
    let F := fun l => nth l fr 0 in
    let L := fun l => 1 + 2 * INR l in
    Ok (mkunits (lmax u) (a_axis u) (flat u)
      (Some (tab n (fun _ => 1)))
      (Some (tab n (fun l => 3 * F l / L l / (4 * PI * rad_e u * rho_e u))))
      (Some (tab n (fun l => 3 * F l / L l / (40 * PI * rad_e u * rho_e u))))
      (Some (tab n (fun _ => 1 / (4 * PI * rad_e u))))
      (mmCU u) (mmCH u) (cmVCU u) (mVCU u)
      (Some (tab n (fun l => rad_e u ^ 2 / (4 * PI * 10 ^ 6 * GM) / (INR l + 1))))
      (mbar u) (Pa u))
  end.

Open Scope string_scope.
(** units.py 249-263 [get] restricted to the unit names (getattr); any other
    attribute name is outside the model and [Err ValueError] stands for a name
    that is not an attribute *)
Definition get (u : units) (var : string) : res (option (list R)) :=
  if String.eqb var "norm" then Ok (norm u) else if String.eqb var "cmwe" then Ok (cmwe u)
  else if String.eqb var "mmwe" then Ok (mmwe u) else if String.eqb var "mmGH" then Ok (mmGH u)
  else if String.eqb var "mmCU" then Ok (mmCU u) else if String.eqb var "mmCH" then Ok (mmCH u)
  else if String.eqb var "cmVCU" then Ok (cmVCU u) else if String.eqb var "mVCU" then Ok (mVCU u)
  else if String.eqb var "microGal" then Ok (microGal u) else if String.eqb var "mbar" then Ok (mbar u)
  else if String.eqb var "Pa" then Ok (Pa u) else Err ValueError.

(** units.py 265-291 [bycode]: list indexing (negative indices allowed), any
    exception becomes ValueError *)
Definition named_units : list string := ["norm"; "cmwe"; "mmGH"; "mmCU"; "microGal"; "mbar"; "cmVCU"].
Definition bycode (var : Z) : res string :=
  match py_get named_units var with Ok s => Ok s | Err _ => Err ValueError end.

(** units.py 293-322 [get_attributes]: the unit strings and long names (the
    non-ascii micro sign is written u) *)
Definition named_attributes : list (string * (string * string)) :=
  [ ("norm", ("1", "Fully-Normalized")); ("mmwe", ("mm", "Equivalent_Water_Thickness"));
    ("cmwe", ("cm", "Equivalent_Water_Thickness")); ("mmGH", ("mm", "Geoid_Height"));
    ("mmCU", ("mm", "Elastic_Crustal_Uplift")); ("mmCH", ("mm", "Horizontal_Elastic_Crustal_Deformation"));
    ("microGal", ("uGal", "Gravitational_Undulation")); ("mbar", ("mbar", "Equivalent_Surface_Pressure"));
    ("cmVCU", ("cm", "Viscoelastic_Crustal_Uplift")); ("mVCU", ("meters", "Viscoelastic_Crustal_Uplift")) ].
Definition get_attributes (var : string) : res (string * string) :=
  match find (fun p => String.eqb (fst p) var) named_attributes with
  | Some p => Ok (snd p) | None => Err ValueError end.
