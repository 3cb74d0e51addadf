(** C110: sea level fingerprints of a load file (model: SleRunModel.v; the equation itself: C50). *)
From Coq Require Import Reals Lra Lia ZifyBool ZifyNat FunctionalExtensionality.
From Verif Require Import Base UnitsModel Arr HarmModel HarmProofs LegendreModel SummationModel SummationProofs GenModel PropGen SleModel SleProofs PropSle SleRunModel MapsProofs PropSmooth.
Close Scope Z_scope.
Close Scope string_scope.
Open Scope R_scope.

(** ** Specification *)
(** number of dates of a file *)
Definition dates (h : harm) : nat := match depth (clm h) with None => 1%nat | Some n => n end.
(** the coefficients of date t up to degree L: those of the file, zero beyond its degree and order *)
Definition load_matrix (L : nat) (h : harm) (cs : bool) (t : nat) : arr R :=
  mkarr (L + 1) (L + 1) None (fun l m _ => if ((l <=? L) && (m <=? L) && (l <=? lmax h) && (m <=? mmax h))%nat then get (if cs then slm h else clm h) l m t else 0).
(** the land function by longitude and latitude: one for the codes 1 to 3, zero otherwise *)
Definition land_cells (mask : arr R) : arr R :=
  mkarr (cols mask) (rows mask) None (fun i j _ => if Rlt_dec (get mask j i 0) 1 then 0 else if Rlt_dec 3 (get mask j i 0) then 0 else 1).

Lemma land_ok mask : transpose (land_function mask) = land_cells mask.
Proof.
  unfold transpose, land_cells. cbn [land_function rows cols get]. f_equal. extensionality i. extensionality j. extensionality u.
  destruct (Rle_dec 1 (get mask j i 0)), (Rlt_dec (get mask j i 0) 1); try reflexivity; try lra. destruct (Rle_dec (get mask j i 0) 3), (Rlt_dec 3 (get mask j i 0)); try reflexivity; lra.
Qed.
Lemma trunc_all L M l1 m1 (a : arr R) l m t : get (trunc_arr L M 0 l1 m1 a) l m t = if ((l <? l1) && (m <? m1))%nat then get a l m t else 0.
Proof. unfold trunc_arr, set_block. cbn [get full]. reflexivity. Qed.
Lemma loads_ok L h t : (2 <= L)%nat -> depth (slm h) = depth (clm h) -> (t < dates h)%nat ->
  load_at (expand_dims (truncate h (Some L) 0 (Some L))) t = (load_matrix L h false t, load_matrix L h true t).
Proof.
  intros HL DS Ht. unfold load_at, expand_dims, truncate. cbn [clm slm]. destruct (Nat.eqb_spec L 0); [lia|].
  assert (K : forall (a : arr R) (cs : bool), depth a = depth (clm h) -> a = (if cs then slm h else clm h) ->
    slice (aexpand (trunc_arr L L 0 (if (L <? lmax h)%nat then (L + 1)%nat else (lmax h + 1)%nat) (if (L <? mmax h)%nat then (L + 1)%nat else (mmax h + 1)%nat) a)) t = load_matrix L h cs t).
  { intros a cs Da Ea. unfold slice, load_matrix. match goal with |- mkarr (rows ?b) _ _ _ = _ => assert (RC : rows b = (L + 1)%nat /\ cols b = (L + 1)%nat) by (unfold aexpand; match goal with |- context [match depth ?q with _ => _ end] => destruct (depth q) end; split; reflexivity) end.
    destruct RC as [-> ->]. f_equal.
    extensionality l. extensionality m. extensionality u. rewrite <- Ea.
    transitivity (get (trunc_arr L L 0 (if (L <? lmax h)%nat then (L + 1)%nat else (lmax h + 1)%nat) (if (L <? mmax h)%nat then (L + 1)%nat else (mmax h + 1)%nat) a) l m t).
    - unfold aexpand. change (depth (trunc_arr L L 0 _ _ a)) with (depth a). rewrite Da. unfold dates in Ht. destruct (depth (clm h)); [reflexivity|]. cbn [get]. replace t with 0%nat by lia. reflexivity.
    - rewrite trunc_all. destruct (Nat.ltb_spec L (lmax h)), (Nat.ltb_spec L (mmax h));
        (match goal with |- (if ?b then _ else _) = (if ?c then _ else _) => replace b with c by lia end); reflexivity. }
  f_equal; [apply (K (clm h) false)|apply (K (slm h) true)]; auto.
Qed.

(** valid arguments: those of C50 with the land of the mask; the loads are any coefficients *)
Definition setup (lon lat : list R) (mask : arr R) (LMAX : nat) (h k : list R) (POLAR : bool) (B : body_arg) (F : fluid_arg) (polar SC : R) : Prop :=
  rows mask = List.length lat /\ cols mask = List.length lon /\
  forall loadC loadS, rows loadC = (LMAX + 1)%nat -> cols loadC = (LMAX + 1)%nat -> rows loadS = (LMAX + 1)%nat -> cols loadS = (LMAX + 1)%nat ->
    sle_ok lon lat LMAX loadC loadS (land_cells mask) h k POLAR B F polar SC.

Section Run.
Context (lon lat : list R) (mask : arr R) (LMAX : nat) (h k ll : list R) (POLAR : bool) (B : body_arg) (F : fluid_arg) (polar SC : R) (IT : nat).
Hypothesis S : setup lon lat mask LMAX h k POLAR B F polar SC.
Hypothesis HI : (1 <= IT)%nat.
Let land := land_cells mask.

Lemma valid (load : harm) t : sle_ok lon lat LMAX (load_matrix LMAX load false t) (load_matrix LMAX load true t) land h k POLAR B F polar SC.
Proof. destruct S as (_ & _ & V). apply V; reflexivity. Qed.
Lemma deg2 : (2 <= LMAX)%nat.
Proof. apply (s_lmax _ _ _ _ _ _ _ _ _ _ _ _ _ (valid (mkharm 0 0 (full 1 1 None 0) (full 1 1 None 0) TNone TNone) 0)). Qed.
(** the equation of one date *)
Definition solve (load : harm) (t : nat) : res (arr R) :=
  sea_level_equation (load_matrix LMAX load false t) (load_matrix LMAX load true t) lon lat land LMAX (Some (h, k, ll)) B F POLAR IT None 0 SC.
Lemma given_plm c s P : holmes_or None LMAX lat = Ok P ->
  sea_level_equation c s lon lat land LMAX (Some (h, k, ll)) B F POLAR IT (Some P) 0 SC = sea_level_equation c s lon lat land LMAX (Some (h, k, ll)) B F POLAR IT None 0 SC.
Proof. intros E. unfold sea_level_equation. rewrite E. reflexivity. Qed.
Lemma run_ok (load : harm) DATE : depth (slm load) = depth (clm load) ->
  exists out, run_sea_level_equation lon lat mask load LMAX (Some (h, k, ll)) B F POLAR IT SC DATE = Ok out /\
    lv_lon out = lon /\ lv_lat out = lat /\ rows (lv_data out) = List.length lat /\ cols (lv_data out) = List.length lon /\
    depth (lv_data out) = (if (dates load =? 1)%nat then None else Some (dates load)) /\
    lv_time out = (if DATE then tsqueeze (atleast_1d (time load)) else TNone) /\
    (forall t, (t < dates load)%nat -> exists level, solve load t = Ok level /\ forall i j, get (lv_data out) j i t = get level i j 0) /\
    forall j i t, lv_mask out j i t = true <-> get (lv_data out) j i t = 0.
Proof.
  intros DS. pose proof deg2 as HL. unfold run_sea_level_equation. destruct S as (R1 & R2 & V).
  destruct (s_grid _ _ _ _ _ _ _ _ _ _ _ _ _ (valid load 0)) as (G1 & G2 & _). rewrite R1, R2. replace ((List.length lat =? 1) || (List.length lon =? 1))%nat%bool with false by lia.
  assert (P : exists P, holmes_or None LMAX lat = Ok P).
  { destruct (C50_result _ _ _ _ _ _ _ _ ll _ _ _ _ _ IT (valid load 0) HI) as (lv & n & E & _). unfold sea_level_equation in E.
    destruct (_ || _)%bool; [discriminate|]. match type of E with bind ?e _ = _ => destruct e; [|discriminate] end. cbn [bind] in E. destruct (holmes_or None LMAX lat); [eauto|discriminate]. }
  destruct P as [P EP]. pose proof EP as EP'. unfold holmes_or in EP'. destruct (plm_holmes LMAX (map (fun x => cos (colat x)) lat) None) as [[P1 dP]|]; [|discriminate]. cbn [bind fst] in EP' |- *.
  injection EP' as ->. rewrite land_ok. fold land.
  assert (NT : nslice (clm (expand_dims (truncate load (Some LMAX) 0 (Some LMAX)))) = dates load).
  { unfold expand_dims, truncate, nslice, aexpand, trunc_arr, dates. cbn [clm set_block full depth]. destruct (depth (clm load)); reflexivity. }
  rewrite NT.
  assert (SV : forall t, (t < dates load)%nat -> (let '(c, s) := load_at (expand_dims (truncate load (Some LMAX) 0 (Some LMAX))) t in
       sea_level_equation c s lon lat land LMAX (Some (h, k, ll)) B F POLAR IT (Some P) 0 SC) = solve load t).
  { intros t Ht. rewrite loads_ok by auto. apply given_plm. exact EP. }
  match goal with |- context [mapM ?f (seq 0 (dates load))] => set (ff := f) end.
  destruct (mapM_all ff (seq 0 (dates load))) as [levels EL].
  { intros t Ht. apply in_seq in Ht. unfold ff. rewrite SV by lia. destruct (C50_result _ _ _ _ _ _ _ _ ll _ _ _ _ _ IT (valid load t) HI) as (lv & n & E & _). exists lv. exact E. }
  rewrite EL. cbn [bind]. eexists. split; [reflexivity|]. cbn [lv_lon lv_lat lv_data lv_mask lv_time rows cols depth get]. do 5 (split; [reflexivity|]).
  split; [destruct DATE; reflexivity|]. destruct (mapM_nth _ _ _ EL) as [LL NN]. rewrite seq_length in LL, NN. split.
  - intros t Ht. specialize (NN t 0%nat (full 0 0 None 0) Ht). rewrite seq_nth in NN by exact Ht. cbn [Nat.add] in NN. unfold ff in NN. rewrite SV in NN by exact Ht. eexists. split; [exact NN|]. reflexivity.
  - intros j i t. destruct (Req_EM_T _ 0); split; intros; try reflexivity; auto; discriminate.
Qed.
End Run.

(** ** Results *)
(** for every land-sea mask, load file and number of dates: the file holds, on the grid of the mask, for each date the sea level of this date (C50) for the coefficients up to LMAX,
    after at most ITERATIONS rounds; a cell is masked exactly if its value is zero *)
Theorem C110_levels : forall lon lat mask (load : harm) LMAX h k ll POLAR B F polar SC ITERATIONS DATE,
  setup lon lat mask LMAX h k POLAR B F polar SC -> (1 <= ITERATIONS)%nat -> depth (slm load) = depth (clm load) ->
  exists out, run_sea_level_equation lon lat mask load LMAX (Some (h, k, ll)) B F POLAR ITERATIONS SC DATE = Ok out /\
    lv_lon out = lon /\ lv_lat out = lat /\ rows (lv_data out) = List.length lat /\ cols (lv_data out) = List.length lon /\
    depth (lv_data out) = (if (dates load =? 1)%nat then None else Some (dates load)) /\
    lv_time out = (if DATE then tsqueeze (atleast_1d (time load)) else TNone) /\
    (forall j i t, lv_mask out j i t = true <-> get (lv_data out) j i t = 0) /\
    forall t, (t < dates load)%nat ->
      let C := load_matrix LMAX load false t in let D := load_matrix LMAX load true t in let land := land_cells mask in
      exists n, (1 <= n <= ITERATIONS)%nat /\
        (forall i j, (i < List.length lon)%nat -> (j < List.length lat)%nat -> get (lv_data out) j i t = sea_level_at lon lat LMAX C D land h k polar n i j) /\
        (forall i, (1 <= i < n)%nat -> ~ has_converged lon lat LMAX C D land h k polar i) /\
        (n = ITERATIONS \/ has_converged lon lat LMAX C D land h k polar n).
Proof.
  intros lon lat mask load LMAX h k ll POLAR B F polar SC IT DATE S HI DS.
  destruct (run_ok lon lat mask LMAX h k ll POLAR B F polar SC IT S HI load DATE DS) as (out & E & A1 & A2 & A3 & A4 & A5 & A6 & V & MK).
  exists out. do 7 (split; [assumption|]). split; [exact MK|]. intros t Ht C D land.
  destruct (V t Ht) as (level & E1 & W). unfold solve in E1.
  destruct (C50_result _ _ _ _ _ _ _ _ ll _ _ _ _ _ IT (valid lon lat mask LMAX h k POLAR B F polar SC S load t) HI) as (lv & n & E2 & _ & _ & _ & VV & N1 & N2 & N3).
  rewrite E1 in E2. injection E2 as <-. exists n. split; [exact N1|]. split; [intros i j Hi Hj; rewrite W; apply VV; assumption|]. split; assumption.
Qed.
Print Assumptions C110_levels.

(** mass is conserved at every date, and the land is zero and masked *)
Theorem C110_mass : forall lon lat mask (load : harm) LMAX h k ll POLAR B F polar SC ITERATIONS DATE out t,
  setup lon lat mask LMAX h k POLAR B F polar SC -> (1 <= ITERATIONS)%nat -> depth (slm load) = depth (clm load) ->
  run_sea_level_equation lon lat mask load LMAX (Some (h, k, ll)) B F POLAR ITERATIONS SC DATE = Ok out -> (t < dates load)%nat ->
  rad_e (earth LMAX) ^ 2 * integral lon lat (fun i j => get (lv_data out) j i t) = - (4 / 3 * PI * rad_e (earth LMAX) ^ 3 * rho_e (earth LMAX) * get (clm load) 0 0 t) /\
  forall i j, (i < List.length lon)%nat -> (j < List.length lat)%nat -> 1 <= get mask j i 0 <= 3 -> get (lv_data out) j i t = 0 /\ lv_mask out j i t = true.
Proof.
  intros lon lat mask load LMAX h k ll POLAR B F polar SC IT DATE out t S HI DS E Ht.
  destruct (run_ok lon lat mask LMAX h k ll POLAR B F polar SC IT S HI load DATE DS) as (out' & E' & A1 & A2 & A3 & A4 & A5 & A6 & V & MK). rewrite E in E'. injection E' as <-.
  destruct (V t Ht) as (level & E1 & W). unfold solve in E1. pose proof (valid lon lat mask LMAX h k POLAR B F polar SC S load t) as OK. split.
  - pose proof (C50_mass _ _ _ _ _ _ _ _ ll _ _ _ _ _ IT level OK HI E1) as M. unfold load_mass, load_matrix in M. cbn [get Nat.leb andb] in M. rewrite <- M. f_equal.
    unfold integral. apply quad_ext. intros i j _ _. apply W.
  - intros i j Hi Hj HM. assert (Z : get (lv_data out) j i t = 0).
    { rewrite W. apply (C50_land _ _ _ _ _ _ _ _ ll _ _ _ _ _ IT level OK HI E1); auto. cbn [land_cells get]. destruct (Rlt_dec _ 1); [lra|]. destruct (Rlt_dec 3 _); [lra|reflexivity]. }
    split; [exact Z|]. apply MK. exact Z.
Qed.
Print Assumptions C110_mass.

(** every date is solved by itself: a file with the coefficients of one date alone gives the same field *)
Theorem C110_dates : forall lon lat mask (load one : harm) LMAX h k ll POLAR B F polar SC ITERATIONS DATE DATE' out out' t,
  setup lon lat mask LMAX h k POLAR B F polar SC -> (1 <= ITERATIONS)%nat -> depth (slm load) = depth (clm load) -> (t < dates load)%nat ->
  lmax one = lmax load -> mmax one = mmax load -> depth (clm one) = None -> depth (slm one) = None ->
  (forall l m, (l <= lmax load)%nat -> (m <= mmax load)%nat -> get (clm one) l m 0 = get (clm load) l m t /\ get (slm one) l m 0 = get (slm load) l m t) ->
  run_sea_level_equation lon lat mask load LMAX (Some (h, k, ll)) B F POLAR ITERATIONS SC DATE = Ok out ->
  run_sea_level_equation lon lat mask one LMAX (Some (h, k, ll)) B F POLAR ITERATIONS SC DATE' = Ok out' ->
  forall i j, get (lv_data out') j i 0 = get (lv_data out) j i t.
Proof.
  intros lon lat mask load one LMAX h k ll POLAR B F polar SC IT DATE DATE' out out' t S HI DS Ht EL EM D1 D2 EQ E E' i j.
  destruct (run_ok lon lat mask LMAX h k ll POLAR B F polar SC IT S HI load DATE DS) as (o & Eo & _ & _ & _ & _ & _ & _ & V & _). rewrite E in Eo. injection Eo as <-.
  destruct (run_ok lon lat mask LMAX h k ll POLAR B F polar SC IT S HI one DATE' ltac:(congruence)) as (o & Eo & _ & _ & _ & _ & _ & _ & V' & _). rewrite E' in Eo. injection Eo as <-.
  destruct (V t Ht) as (x & Ex & Wx). destruct (V' 0%nat) as (y & Ey & Wy); [unfold dates; rewrite D1; lia|].
  assert (M : forall cs, load_matrix LMAX one cs 0 = load_matrix LMAX load cs t).
  { intros cs. unfold load_matrix. f_equal. extensionality l. extensionality m. extensionality u. rewrite EL, EM.
    destruct ((l <=? LMAX) && (m <=? LMAX) && (l <=? lmax load) && (m <=? mmax load))%nat eqn:Q; [|reflexivity]. destruct (EQ l m ltac:(lia) ltac:(lia)) as [X Y]. destruct cs; assumption. }
  unfold solve in Ex, Ey. rewrite !M in Ey. rewrite Ex in Ey. injection Ey as <-. rewrite Wx, Wy. reflexivity.
Qed.
Print Assumptions C110_dates.

(** the mask does not tell the land: at a date without load every cell is masked, ocean included *)
Theorem C110_mask_refuted : forall lon lat mask (load : harm) LMAX h k ll POLAR B F polar SC ITERATIONS DATE out t,
  setup lon lat mask LMAX h k POLAR B F polar SC -> (1 <= ITERATIONS)%nat -> depth (slm load) = depth (clm load) ->
  run_sea_level_equation lon lat mask load LMAX (Some (h, k, ll)) B F POLAR ITERATIONS SC DATE = Ok out -> (t < dates load)%nat ->
  (forall l m, get (clm load) l m t = 0 /\ get (slm load) l m t = 0) ->
  forall i j, (i < List.length lon)%nat -> (j < List.length lat)%nat -> lv_mask out j i t = true.
Proof.
  intros lon lat mask load LMAX h k ll POLAR B F polar SC IT DATE out t S HI DS E Ht Z i j Hi Hj.
  destruct (run_ok lon lat mask LMAX h k ll POLAR B F polar SC IT S HI load DATE DS) as (o & Eo & _ & _ & _ & _ & _ & _ & V & MK). rewrite E in Eo. injection Eo as <-.
  destruct (V t Ht) as (x & Ex & Wx). unfold solve in Ex. apply MK. rewrite Wx.
  destruct (C50_zero_load _ _ _ _ _ _ _ _ ll _ _ _ _ _ IT (valid lon lat mask LMAX h k POLAR B F polar SC S load t) HI) as (y & Ey & W).
  - intros l m. cbn [load_matrix get]. destruct (_ && _)%bool; [apply Z|reflexivity].
  - intros l m. cbn [load_matrix get]. destruct (_ && _)%bool; [apply Z|reflexivity].
  - rewrite Ex in Ey. injection Ey as <-. apply W; assumption.
Qed.
Print Assumptions C110_mask_refuted.

(** a mask with codes other than 0 to 3: the cell counts as ocean (4 x 3 grid, one land cell, one cell of code 4) *)
Definition ex_mask : arr R := mkarr 3 4 None (fun j i _ => if (i =? 0)%nat && (j =? 1)%nat then 2 else if (i =? 1)%nat && (j =? 1)%nat then 4 else 0).
Example C110_nonvacuous : setup [0; 90; 180; 270] [90; 0; -90] ex_mask 2 [0; 0; 0] [0; 0; 0] true (BCode 0) (FCode 3) ((1 + 298 / 1000 - 604 / 1000) * (1 + 0) / (942 / 1000 - 298 / 1000)) 1 /\
  get (land_cells ex_mask) 1 1 0 = 0 /\ get (land_cells ex_mask) 0 1 0 = 1.
Proof.
  assert (E : land_cells ex_mask = mkarr 4 3 None (fun i j _ => if (i =? 0)%nat && (j =? 1)%nat then 1 else 0)).
  { unfold land_cells, ex_mask. cbn [rows cols get]. f_equal. extensionality i. extensionality j. extensionality u.
    destruct ((i =? 0)%nat && (j =? 1)%nat); [|destruct ((i =? 1)%nat && (j =? 1)%nat)]; destruct (Rlt_dec _ 1); try lra; destruct (Rlt_dec 3 _); try lra; reflexivity. }
  split; [|rewrite E; split; reflexivity]. split; [reflexivity|]. split; [reflexivity|]. intros loadC loadS R1 R2 R3 R4. rewrite E.
  destruct C50_example. constructor; auto.
Qed.
