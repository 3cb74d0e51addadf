(** Model of sea_level_equation.py.  Exact real arithmetic: dividing by zero (no
    ocean, 1 + k_l = 0, klf = k2b) gives inf/nan in the code and is excluded by the
    hypotheses of the theorems, except for the convergence test, whose 0/0 and x/0
    cases are modelled. *)
From Coq Require Import Reals Lra String.
From Verif Require Import Base UnitsModel GaussModel Arr HarmModel LegendreModel SummationModel GenModel.
Close Scope Z_scope.
Open Scope R_scope.

(** sea_level_equation.py 211-222: None is an unassigned variable *)
Inductive body_arg := BPair (k2b h2b : R) | BCode (z : Z).
Definition body_tide (b : body_arg) : option (R * R) :=
  match b with
  | BPair k h => Some (k, h)
  | BCode 0 => Some (298 / 1000, 604 / 1000)
  | BCode 1 => Some (3055 / 10000, 6149 / 10000)
  | BCode _ => None
  end.
(** 224-266 *)
Inductive fluid_arg := FList (klf : R) | FCode (z : Z).
Definition omega : R := 7292115 / 10 ^ 11.
Definition fluid_love (f : fluid_arg) : option R :=
  match f with
  | FList k => Some k
  | FCode 0 => Some (328475 / 348118)
  | FCode 1 => Some (3 * (398004418 * 10 ^ 6) * (1 / (30551 / 100)) * (33068 / 10 ^ 5) / (6371000 ^ 3 * omega ^ 2))
  | FCode 2 => Some (2 * (1 / (298257223563 / 10 ^ 9)) * (980665 / 10 ^ 5) / (omega ^ 2 * 6371000) - 1)
  | FCode 3 => Some (942 / 1000)
  | FCode _ => None
  end.

(** 270-287: the two coefficient tables (rho_water = 1).  [polar] is the factor
    coefpmf when POLAR, None otherwise *)
Definition coefpmf (k2b h2b klf k2 : R) : R := (1 + k2b - h2b) * (1 + k2) / (klf - k2b).
Definition coefh (rho : R) (h k : list R) (polar : option R) (l m : nat) : R :=
  if (m <=? l)%nat then
    3 * 1 * (1 + nth l k 0 - nth l h 0) / rho / (2 * INR l + 1)
    + match polar with Some p => if (l =? 2)%nat && (m =? 1)%nat then 3 * 1 * p / rho / (2 * INR l + 1) else 0 | None => 0 end
  else 0.
Definition coefp (h k : list R) (polar : option R) (l m : nat) : R :=
  if (m <=? l)%nat then
    (1 + nth l k 0 - nth l h 0) / (nth l k 0 + 1)
    + match polar with Some p => if (l =? 2)%nat && (m =? 1)%nat then p / (nth l k 0 + 1) else 0 | None => 0 end
  else 0.

(** 385-387: sum of the moduli over the lower triangle *)
Definition modulus (H : harm) (LMAX : nat) : R :=
  sumn (LMAX + 1) (fun l => sumn (l + 1) (fun m => sqrt (get (clm H) l m 0 ^ 2 + get (slm H) l m 0 ^ 2))).
(** 323, 387: [eps > 1e-4] with eps = |sum(mod2-mod1)/sum(mod1)|; 0/0 is nan (the
    comparison is false), x/0 is inf (true) *)
Definition not_converged (m1 m2 : R) : bool :=
  if Req_EM_T m1 0 then (if Req_EM_T (m2 - m1) 0 then false else true)
  else if Rlt_dec (1 / 10 ^ 4) (Rabs ((m2 - m1) / m1)) then true else false.

Section Sle.
Context (loadC loadS : arr R) (glon glat : list R) (land : arr R) (LMAX : nat) (P : arr R) (SC : R).
Context (ch cp : nat -> nat -> R) (tmass area : R) (oceanY : harm).
Definition a_e : R := rad_e (earth LMAX).
(** 196 *)
Definition ocean : arr R := amap (fun x => 1 - x) land.
Definition harm_of (g : arr R) : res harm := gen_harmonics g glon glat LMAX None (Some P).
(** 325-389: one pass of the while loop: new heights and sea level.  clenshaw_s_m
    (409-485) is the one of clenshaw_summation.py without degree factors; lines
    336-359 evaluate it at the cells where the ocean function is not zero *)
Definition sle_round (H : harm) : res (arr R * harm) :=
  let c1 := fun l m => ch l m * get (clm H) l m 0 + a_e * cp l m * get loadC l m 0 in
  let s1 := fun l m => ch l m * get (slm H) l m 0 + a_e * cp l m * get loadS l m 0 in
  let raw := mkarr (rows land) (cols land) None (fun i j _ =>
    if Req_EM_T (get ocean i j 0) 0 then 0
    else clenshaw_point (colat (nth j glat 0)) (deg (nth i glon 0)) (fun _ => 1) c1 s1 LMAX SC) in
  do Y <- harm_of raw;
  let rmass := 4 * PI * get (clm Y) 0 0 0 in
  let h := (- tmass / 1 / a_e ^ 2 - rmass) / area in
  let level := mkarr (rows land) (cols land) None (fun i j _ => get raw i j 0 + h * get ocean i j 0) in
  do U <- scale oceanY (SScalar h);
  do Y <- add Y U;
  Ok (level, Y).
(** 318-391; [n] is the number of rounds still allowed *)
Fixpoint sle_loop (n : nat) (big : bool) (H : harm) (level : option (arr R)) : res (option (arr R)) :=
  match n with
  | O => Ok level
  | S n =>
      if big then
        do r <- sle_round H;
        sle_loop n (not_converged (modulus H LMAX) (modulus (snd r) LMAX)) (snd r) (Some (fst r))
      else Ok level
  end.
End Sle.

(** 130-405.  The land function must have one row per longitude and one column
    per latitude, and the loads (LMAX+1) x (LMAX+1) entries; other shapes are not
    modelled (ValueError here). *)
Definition sea_level_equation (loadC loadS : arr R) (glon glat : list R) (land : arr R) (LMAX : nat) (LOVE : option love3)
  (B : body_arg) (F : fluid_arg) (POLAR : bool) (ITERATIONS : nat) (PLM : option (arr R)) (FILL SC : R) : res (arr R) :=
  match LOVE with
  | None => Err TypeError                                               (* hl,kl,ll = None *)
  | Some (h, k, _) =>
      if (List.length k <? LMAX + 1)%nat || (List.length h <? LMAX + 1)%nat then Err IndexError else
      do polar <- (if POLAR && (2 <=? LMAX)%nat then
          match body_tide B, fluid_love F with
          | Some (k2b, h2b), Some klf => Ok (Some (coefpmf k2b h2b klf (nth 2 k 0)))
          | _, _ => Err UnboundLocalError
          end else Ok None);
      let rho := rho_e (earth LMAX) in
      let ch := coefh rho h k polar in
      let cp := coefp h k polar in
      do P <- holmes_or PLM LMAX glat;
      if negb ((rows land =? List.length glon) && (cols land =? List.length glat) && (rows loadC =? LMAX + 1) && (cols loadC =? LMAX + 1)
               && (rows loadS =? LMAX + 1) && (cols loadS =? LMAX + 1))%nat then Err ValueError
      else
      let a := rad_e (earth LMAX) in
      let tmass := 4 * PI * a ^ 3 * rho * get loadC 0 0 0 / 3 in
      do oceanY <- gen_harmonics (ocean land) glon glat LMAX None (Some P);
      let area := 4 * PI * get (clm oceanY) 0 0 0 in
      let h0 := - tmass / 1 / a ^ 2 / area in
      do H <- scale oceanY (SScalar h0);
      do r <- sle_loop loadC loadS glon glat land LMAX P SC ch cp tmass area oceanY ITERATIONS true H None;
      match r with
      | None => Err UnboundLocalError                                   (* sea_level was never assigned *)
      | Some level =>
          if Req_EM_T FILL 0 then Ok level
          else Ok (mkarr (rows level) (cols level) None (fun i j t => if Req_EM_T (get land i j 0) 0 then get level i j t else FILL))
      end
  end.
