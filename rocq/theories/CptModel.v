(** Model of tools.py 918-1030 [from_cpt] and 1032-1114 [custom_colormap].
    A file is the list of its lines; the numbers that the regular expression of line 943 finds in a line are a parameter
    [findall]; floats are exact reals.  matplotlib is not modelled: the result is the table of colours that is given to
    LinearSegmentedColormap and the colours that are given to with_extremes. *)
From Coq Require Import Reals String Ascii.
From Verif Require Import Base CmrModel TsModel.
Close Scope Z_scope.
Close Scope string_scope.
Open Scope R_scope.

Definition rgb := (R * R * R)%type.
(** Python int(): towards zero *)
Definition trunc (x : R) : Z := if Rle_dec 0 x then Int_part x else (- Int_part (- x))%Z.
(** colorsys.hsv_to_rgb of the standard library *)
Definition hsv_to_rgb (h s v : R) : rgb :=
  if Req_EM_T s 0 then (v, v, v)
  else
    let i := trunc (h * 6) in
    let f := h * 6 - IZR i in
    let p := v * (1 - s) in
    let q := v * (1 - s * f) in
    let t := v * (1 - s * (1 - f)) in
    let i := (i mod 6)%Z in
    if (i =? 0)%Z then (v, t, p)
    else if (i =? 1)%Z then (q, v, p)
    else if (i =? 2)%Z then (p, v, t)
    else if (i =? 3)%Z then (p, q, v)
    else if (i =? 4)%Z then (t, p, v)
    else (v, p, q).

(** the last HSV or RGB of a text, in any case, as it is written there *)
Definition model_here (s : string) : bool := (prefix "hsv" (lower s) || prefix "rgb" (lower s))%bool.
Fixpoint last_model (s : string) : option string :=
  match s with
  | EmptyString => None
  | String _ r => match last_model r with Some w => Some w | None => if model_here s then Some (substring 0 3 s) else None end
  end.
Fixpoint drop (n : nat) (s : string) : string := match n, s with S k, String _ r => drop k r | _, _ => s end.
(** 953: re.search(r'COLOR_MODEL.*(HSV|RGB)',line,re.I).group(1): the star is greedy *)
Fixpoint color_model (s : string) : option string :=
  match (if prefix "color_model" (lower s) then last_model (drop 11 s) else None) with
  | Some w => Some w
  | None => match s with EmptyString => None | String _ r => color_model r end
  end.
(** 954: re.match(r'[BFN]',line,re.I).group(0) *)
Definition bfn (s : string) : option ascii :=
  match s with
  | String c _ => if existsb (Ascii.eqb (lower_ascii c)) ["b"; "f"; "n"]%char then Some c else None
  | EmptyString => None
  end.
(** 963: a number sign anywhere *)
Definition commented (s : string) : bool := existsb (Ascii.eqb "#"%char) (list_ascii_of_string s).

(** the variables of the loop: colour model, flags (latest first), rows, end of the latest row *)
Record cpt := mkcpt { c_model : string; c_flags : list (ascii * list R); c_rows : list (R * rgb); c_end : option (R * rgb) }.
Definition cpt0 : cpt := mkcpt "RGB"%string [] [] None.
(** 951-972 *)
Definition cpt_line (findall : string -> list R) (c : cpt) (line : string) : res cpt :=
  match color_model line with
  | Some w => Ok (mkcpt w (c_flags c) (c_rows c) (c_end c))
  | None =>
      match bfn line with
      | Some k => Ok (mkcpt (c_model c) ((k, findall line) :: c_flags c) (c_rows c) (c_end c))
      | None =>
          if commented line then Ok c
          else match findall line with
               | [x1; r1; g1; b1; x2; r2; g2; b2] => Ok (mkcpt (c_model c) (c_flags c) (c_rows c ++ [(x1, (r1, g1, b1))])%list (Some (x2, (r2, g2, b2))))
               | _ => Err ValueError
               end
      end
  end.
Fixpoint cpt_lines (findall : string -> list R) (c : cpt) (ls : list string) : res cpt :=
  match ls with [] => Ok c | l :: r => do c <- cpt_line findall c l; cpt_lines findall c r end.

(** 981-998, 1013-1018: a colour in the colour model of the file; for any other word nothing is done *)
Definition paint (w : string) (c : rgb) : rgb :=
  let '(r, g, b) := c in
  if String.eqb w "HSV" then hsv_to_rgb (r / 360) g b else if String.eqb w "RGB" then (r / 255, g / 255, b / 255) else c.
Definition known (w : string) : bool := (String.eqb w "HSV" || String.eqb w "RGB")%bool.
(** 989, 997 *)
Definition place (w : string) (x0 xe x : R) : res (option R) :=
  if known w then if Req_EM_T (xe - x0) 0 then Err ZeroDivision else Ok (Some ((x - x0) / (xe - x0))) else Ok None.

(** the colour table: positions (None when they were not set) with colours, and the extremes *)
Record colormap := mkcolormap { m_table : list (option R * rgb); m_under : option rgb; m_over : option rgb; m_bad : option rgb }.
(** 1010-1020 *)
Definition extreme (c : cpt) (k : ascii) : res (option rgb) :=
  match find (fun f => Ascii.eqb (fst f) k) (c_flags c) with
  | None => Ok None
  | Some (_, [r; g; b]) => Ok (Some (paint (c_model c) (r, g, b)))
  | Some _ => Err ValueError
  end.
(** 936-1030 after reading the file; registering the map in matplotlib and its name are left out *)
Definition from_cpt (findall : string -> list R) (lines : list string) (use_extremes : bool) : res colormap :=
  do c <- cpt_lines findall cpt0 lines;
  match c_end c with
  | None => Err UnboundLocalError                                  (* x2 *)
  | Some e =>
      let rows := (c_rows c ++ [e])%list in
      let x0 := fst (hd e rows) in
      do table <- mapM (fun r => do p <- place (c_model c) x0 (fst e) (fst r); Ok (p, paint (c_model c) (snd r))) rows;
      do u <- extreme c "B"%char;
      do o <- extreme c "F"%char;
      do n <- extreme c "N"%char;
      Ok (if use_extremes then mkcolormap table u o n else mkcolormap table None None None)
  end.

(** colorsys.rgb_to_hsv of the standard library *)
Definition fmod1 (x : R) : R := x - IZR (Int_part x).
Definition rgb_to_hsv (c : rgb) : rgb :=
  let '(r, g, b) := c in
  let maxc := Rmax (Rmax r g) b in
  let minc := Rmin (Rmin r g) b in
  if Req_EM_T minc maxc then (0, 0, maxc)
  else
    let range := maxc - minc in
    let rc := (maxc - r) / range in
    let gc := (maxc - g) / range in
    let bc := (maxc - b) / range in
    let h := if Req_EM_T r maxc then bc - gc else if Req_EM_T g maxc then 2 + rc - bc else 4 + gc - rc in
    (fmod1 (h / 6), range / maxc, maxc).
(** np.clip(x, 0, 1) *)
Definition clip01 (x : R) : R := Rmin (Rmax x 0) 1.
(** 1052: str.capitalize (ASCII): the first letter in upper case, the others in lower case *)
Definition upper_ascii (c : ascii) : ascii := (let n := nat_of_ascii c in if (97 <=? n) && (n <=? 122) then ascii_of_nat (n - 32) else c)%nat.
Definition capitalize (s : string) : string := match s with EmptyString => EmptyString | String c r => String (upper_ascii c) (lower r) end.
(** 1053-1094: the colours.  N is the number of colours *)
Definition colours_of (N : nat) (name : string) : res (list rgb) :=
  let m := capitalize name in
  if String.eqb m "Joughin" then Ok (map (fun h => hsv_to_rgb h 1 1) (linspace (1 / 10) 1 N))
  else if String.eqb m "Seroussi" then
    let RGB := rev (map (fun h => hsv_to_rgb h 1 1) (linspace 0 1 N)) in
    let RGB := firstn (Z.to_nat (Int_part (7 / 10 * INR N)) - 1) (skipn 1 RGB) in                      (* [1:floor(0.7*N)] *)
    Ok (map (fun c => let '(h, _, v) := rgb_to_hsv c in hsv_to_rgb h (clip01 (1 / 10 + h)) v) RGB)
  else if String.eqb m "Rignot" then Ok (map (fun h => hsv_to_rgb h (clip01 (1 / 10 + h)) 1) (linspace 0 1 N))
  else Err ValueError.
(** 1097-1107 *)
Definition custom_colormap (N : nat) (name : string) : res (list (R * rgb)) :=
  do cs <- colours_of N name;
  let X := INR (List.length cs) - 1 in
  mapM (fun '(i, c) => if Req_EM_T X 0 then Err ZeroDivision else Ok (INR i / X, c)) (combine (seq 0 (List.length cs)) cs).
