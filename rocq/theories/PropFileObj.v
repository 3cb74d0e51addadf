(** C133: harmonics read from ICGEM and GRACE level-2 files (model: FileObjModel.v). *)
From Coq Require Import QArith Qround Lqa Lia ZifyBool ZifyNat ZArith List Bool String.
From Verif Require Import Base TimeModel TimeSpec TimeProofs DecimalProofs GraceModel FileObjModel.
Import ListNotations.
Open Scope Z_scope.

(** ** the axes: the numbers from 0 to the maximum *)
Definition counts (a : option (list Z)) (k : Z) : Prop :=
  exists l, a = Some l /\ List.length l = Z.to_nat (k + 1) /\ forall i, (i < Z.to_nat (k + 1))%nat -> nth_error l i = Some (Z.of_nat i).
Lemma orders_ok k : counts (Some (orders k)) k.
Proof.
  exists (orders k). split; [reflexivity|]. unfold orders. rewrite map_length, seq_length. split; [reflexivity|].
  intros i Hi. rewrite nth_error_map. rewrite (nth_error_nth' _ 0%nat) by (rewrite seq_length; lia). rewrite seq_nth by lia. reflexivity.
Qed.

Lemma grace_twelfth y j t : (inject_Z y + inject_Z (j - 1) / 12 <= t)%Q -> (t < inject_Z y + inject_Z j / 12)%Q -> calendar_to_grace t 1 = 12 * (y - 2002) + j.
Proof.
  intros A B. unfold calendar_to_grace.
  assert (E : Qfloor (12 * (t - 2002))%Q = 12 * (y - 2002) + (j - 1)).
  { assert (L : (inject_Z (12 * (y - 2002) + (j - 1)) <= 12 * (t - 2002))%Q).
    { rewrite inject_Z_plus, inject_Z_mult. unfold Z.sub at 1. rewrite inject_Z_plus. change (inject_Z (-(2002))) with (-2002 # 1)%Q. change (inject_Z 12) with 12%Q. change 2002%Q with (2002 # 1)%Q.
      revert A. generalize (inject_Z y) (inject_Z (j - 1)). intros a b A. assert (A' : (12 * a + b <= 12 * t)%Q). { setoid_replace (12 * a + b)%Q with (12 * (a + b / 12))%Q by field. lra. } lra. }
    assert (U : (12 * (t - 2002) < inject_Z (12 * (y - 2002) + (j - 1) + 1))%Q).
    { replace (12 * (y - 2002) + (j - 1) + 1) with (12 * (y - 2002) + j) by ring. rewrite inject_Z_plus, inject_Z_mult. unfold Z.sub. rewrite inject_Z_plus. change (inject_Z (-(2002))) with (-2002 # 1)%Q. change (inject_Z 12) with 12%Q. change 2002%Q with (2002 # 1)%Q.
      revert B. generalize (inject_Z y) (inject_Z j). intros a b B. assert (B' : (12 * t < 12 * a + b)%Q). { setoid_replace (12 * a + b)%Q with (12 * (a + b / 12))%Q by field. lra. } lra. }
    apply Qfloor_resp_le in L. rewrite Qfloor_Z in L. pose proof (Qfloor_le (12 * (t - 2002))%Q) as F1. set (x := Qfloor _) in *.
    assert (X : (inject_Z x < inject_Z (12 * (y - 2002) + (j - 1) + 1))%Q) by lra. rewrite <- Zlt_Qlt in X. lia. }
  rewrite E. ring.
Qed.

Section P.
Context {F S H : Type}.
Variable like : string -> string -> bool.
Variable names : list string.
Notation hobj := (hobj F S H).
Notation find_file := (@find_file F S H like names).
(** nothing but the name of the file differs *)
Definition same_but_file (a b : hobj) : Prop :=
  clm a = clm b /\ slm a = slm b /\ FileObjModel.time a = FileObjModel.time b /\ month a = month b /\ lmax a = lmax b /\ mmax a = mmax b /\ l_axis a = l_axis b /\ m_axis a = m_axis b
  /\ gm a = gm b /\ radius a = radius b /\ tide a = tide b /\ header a = header b.
Ltac same := unfold same_but_file; cbn; repeat split; reflexivity.

(** *** the file: a file of that name if there is one; else one whose name matches but for capitals, the last of them; else FileNotFoundError.  Nothing else of the object changes *)
Lemma find_same o f : same_but_file (fst (find_file o f)) o.
Proof. unfold FileObjModel.find_file. destruct (f =? "")%string; [same|]. destruct (existsb _ _); [same|]. destruct (rev _); same. Qed.
Lemma find_exact o f : In f names -> f <> ""%string -> find_file o f = (set_file o (Some f), None).
Proof.
  intros I N. unfold FileObjModel.find_file. destruct (String.eqb_spec f ""); [contradiction|].
  assert (E : existsb (String.eqb f) names = true) by (apply existsb_exists; exists f; split; [exact I|apply String.eqb_refl]). rewrite E. reflexivity.
Qed.
Theorem C133_name : forall (o : hobj) f, f <> ""%string ->
  (In f names -> find_file o f = (set_file o (Some f), None))
  /\ (~ In f names -> (exists g, In g names /\ like f g = true) ->
      exists g xs ys, find_file o f = (set_file o (Some g), None) /\ names = xs ++ g :: ys /\ like f g = true /\ forall y, In y ys -> like f y = false)
  /\ (~ In f names -> (forall g, In g names -> like f g = false) -> find_file o f = (set_file o (Some f), Some FileNotFound))
  /\ same_but_file (fst (find_file o f)) o.
Proof.
  intros o f N. split; [intros I; apply find_exact; assumption|].
  assert (A : ~ In f names -> existsb (String.eqb f) names = false).
  { intros NI. apply not_true_iff_false. intros E. apply existsb_exists in E. destruct E as (x & I & E). apply String.eqb_eq in E. subst x. exact (NI I). }
  split; [|split; [|apply find_same]].
  - intros NI (g & I & L). specialize (A NI). unfold FileObjModel.find_file. destruct (String.eqb_spec f ""); [contradiction|]. rewrite A. clear A N NI n.
    assert (E : exists g' xs ys, names = (xs ++ g' :: ys)%list /\ like f g' = true /\ forall y, In y ys -> like f y = false).
    { clear o. induction names as [|x t IH]; [destruct I|]. destruct (existsb (like f) t) eqn:B.
      - assert (IB : exists y, In y t /\ like f y = true) by (apply existsb_exists; exact B). destruct IB as (y & Iy & Ly).
        assert (IH' : exists g' xs ys, t = (xs ++ g' :: ys)%list /\ like f g' = true /\ forall y, In y ys -> like f y = false).
        { clear IH. revert y Iy Ly B. clear. induction t as [|z t IH]; intros y Iy Ly B; [destruct Iy|]. cbn [existsb] in B. destruct (existsb (like f) t) eqn:C.
          - apply existsb_exists in C as C'. destruct C' as (w & Iw & Lw). destruct (IH w Iw Lw eq_refl) as (g' & xs & ys & E & L' & R). exists g', (z :: xs), ys. rewrite E. split; [reflexivity|]. split; assumption.
          - rewrite orb_false_r in B. exists z, [], t. split; [reflexivity|]. split; [exact B|]. intros v Iv. destruct (like f v) eqn:D; [|reflexivity].
            rewrite <- C. symmetry. apply existsb_exists. exists v. split; assumption. }
        destruct IH' as (g' & xs & ys & E & L' & R). exists g', (x :: xs), ys. rewrite E. split; [reflexivity|]. split; assumption.
      - exists g, [], t. assert (D : forall v, In v t -> like f v = false).
        { intros v Iv. destruct (like f v) eqn:D; [|reflexivity]. rewrite <- B. symmetry. apply existsb_exists. exists v. split; assumption. }
        destruct I as [<-|I]; [split; [reflexivity|]; split; assumption|]. rewrite (D g I) in L. discriminate. }
    destruct E as (g' & xs & ys & E & L' & R). exists g', xs, ys. split; [|split; [exact E|split; assumption]].
    rewrite E, filter_app. cbn [filter]. rewrite L'. assert (Z0 : filter (like f) ys = []).
    { clear -R. induction ys as [|y t IH]; [reflexivity|]. cbn [filter]. rewrite (R y (or_introl eq_refl)). apply IH. intros v Iv. apply R. right. exact Iv. }
    rewrite Z0, rev_app_distr. reflexivity.
  - intros NI L. specialize (A NI). unfold FileObjModel.find_file. destruct (String.eqb_spec f ""); [contradiction|]. rewrite A.
    assert (Z0 : filter (like f) names = []).
    { clear -L. induction names as [|y t IH]; [reflexivity|]. cbn [filter]. rewrite (L y (or_introl eq_refl)). apply IH. intros v Iv. apply L. right. exact Iv. }
    rewrite Z0. reflexivity.
Qed.

Variable read_icgem : option string -> option H -> res (icgem F S H).
Variable read_gfc : option string -> option H -> res (icgem F S H * Q).
Notation from_gfc := (from_gfc like read_icgem read_gfc names).

(** *** an ICGEM file without a date: coefficients, constants and axes of the file; date, month and header stay those the object had *)
Theorem C133_undated : forall (o : hobj) f td d, In f names -> f <> ""%string -> read_icgem (Some f) td = Ok d ->
  exists o' : hobj, from_gfc o f false td = (o', None)
  /\ clm o' = Some (g_clm d) /\ slm o' = Some (g_slm d) /\ lmax o' = Some (g_max d) /\ mmax o' = Some (g_max d)
  /\ counts (l_axis o') (g_max d) /\ counts (m_axis o') (g_max d)
  /\ gm o' = Some (g_gm d) /\ radius o' = Some (FileObjModel.g_radius d) /\ tide o' = Some (g_tide d) /\ file o' = Some f
  /\ FileObjModel.time o' = FileObjModel.time o /\ month o' = month o /\ header o' = header o.
Proof.
  intros o f td d I N R. unfold FileObjModel.from_gfc. rewrite find_exact by assumption. cbn [file set_file]. rewrite R. eexists. split; [reflexivity|].
  cbn. repeat split; try reflexivity; apply orders_ok.
Qed.
(** of what the object held before only date, month and header matter *)
Theorem C133_forgets : forall o1 o2 f td, FileObjModel.time o1 = FileObjModel.time o2 -> month o1 = month o2 -> header o1 = header o2 ->
  snd (from_gfc o1 f false td) = None -> from_gfc o2 f false td = from_gfc o1 f false td.
Proof.
  intros o1 o2 f td T M HD. unfold FileObjModel.from_gfc, FileObjModel.find_file. destruct (f =? "")%string.
  2:destruct (existsb (String.eqb f) names).
  3:destruct (rev (filter (like f) names)).
  3:discriminate.
  all: cbn [file set_file]; destruct (read_icgem _ td); [|discriminate]; intros _; unfold update_dimensions, put_constants, put_coefficients, set_file; cbn; rewrite T, M, HD; reflexivity.
Qed.
(** reading the file again changes nothing *)
Theorem C133_twice : forall (o : hobj) f td, snd (from_gfc o f false td) = None -> from_gfc (fst (from_gfc o f false td)) f false td = from_gfc o f false td.
Proof.
  intros o f td E. apply C133_forgets; [| | |exact E]; revert E; unfold FileObjModel.from_gfc, FileObjModel.find_file.
  all: destruct (f =? "")%string; [|destruct (existsb (String.eqb f) names); [|destruct (rev (filter (like f) names)); [discriminate|]]].
  all: cbn [file set_file]; destruct (read_icgem _ td); [|discriminate]; intros _; reflexivity.
Qed.
(** *** refuted: no dated ICGEM file can be read, whatever the file and the object.  The coefficients, the date and the maximum degree have been replaced by then, the axes, the month and the constants have not *)
Theorem C133_dated_never : forall (o : hobj) f td,
  snd (from_gfc o f true td) <> None
  /\ forall d t, In f names -> f <> ""%string -> read_gfc (Some f) td = Ok (d, t) ->
     exists o' : hobj, from_gfc o f true td = (o', Some KeyError)
     /\ clm o' = Some (g_clm d) /\ slm o' = Some (g_slm d) /\ lmax o' = Some (g_max d) /\ mmax o' = Some (g_max d) /\ FileObjModel.time o' = Some t
     /\ month o' = month o /\ l_axis o' = l_axis o /\ m_axis o' = m_axis o /\ gm o' = gm o /\ radius o' = radius o /\ tide o' = tide o.
Proof.
  intros o f td. split.
  - unfold FileObjModel.from_gfc. destruct (find_file o f) as [o1 [e|]]; [discriminate|]. destruct (read_gfc _ td) as [[d t]|e]; discriminate.
  - intros d t I N R. unfold FileObjModel.from_gfc. rewrite find_exact by assumption. cbn [file set_file]. rewrite R. eexists. split; [reflexivity|]. cbn. repeat split; reflexivity.
Qed.

(** *** GRACE level-2 files *)
Variable open_level2 : option string -> res unit.
Variable read_level2 : option string -> Z -> option Z -> res (level2 F H).
Notation from_SHM := (from_SHM like open_level2 read_level2 names).
(** the month is the number of the twelfth of the year in which the date falls; degrees and orders of the object stay, whatever the columns read (keyword MMAX) *)
Theorem C133_level2 : forall (o : hobj) f mm k d h y j, In f names -> f <> ""%string -> lmax o = Some k ->
  open_level2 (Some f) = Ok tt -> read_level2 (Some f) k mm = Ok d -> s_header d = Some h ->
  (inject_Z y + inject_Z (j - 1) / 12 <= s_time d)%Q -> (s_time d < inject_Z y + inject_Z j / 12)%Q ->
  exists o' : hobj, from_SHM o f mm = (o', None) /\ clm o' = Some (s_clm d) /\ slm o' = Some (s_slm d) /\ FileObjModel.time o' = Some (s_time d)
  /\ month o' = Some (12 * (y - 2002) + j) /\ header o' = Some h /\ file o' = Some f
  /\ lmax o' = Some k /\ counts (l_axis o') k /\ mmax o' = mmax o
  /\ (forall n, mmax o = Some n -> counts (m_axis o') n) /\ (mmax o = None -> m_axis o' = None)
  /\ gm o' = gm o /\ radius o' = radius o /\ tide o' = tide o.
Proof.
  intros o f mm k d h y j I N L O R HD A B. unfold FileObjModel.from_SHM. rewrite find_exact by assumption. cbn [file set_file lmax]. unfold read_grace_harmonics. rewrite O, L. cbn [bind]. rewrite R. rewrite HD.
  eexists. split; [reflexivity|]. unfold update_dimensions, set_file. cbn. rewrite (grace_twelfth y j _ A B).
  repeat split; try reflexivity; try apply orders_ok.
  - intros n E. rewrite E. apply orders_ok.
  - intros E. rewrite E. reflexivity.
Qed.
(** refuted: an object without a maximum degree cannot take a level-2 file: TypeError once the file could be opened *)
Theorem C133_no_degree : forall (o : hobj) f mm, lmax o = None ->
  snd (from_SHM o f mm) <> None /\ same_but_file (fst (from_SHM o f mm)) o
  /\ (In f names -> f <> ""%string -> open_level2 (Some f) = Ok tt -> snd (from_SHM o f mm) = Some TypeError).
Proof.
  intros o f mm L. pose proof (find_same o f) as SM. pose proof (find_exact o f) as FE. unfold FileObjModel.from_SHM. destruct (find_file o f) as [o1 [e|]].
  - cbn [fst snd] in *. split; [discriminate|]. split; [exact SM|]. intros I N. specialize (FE I N). discriminate.
  - cbn [fst] in SM. assert (L1 : lmax o1 = None) by (unfold same_but_file in SM; intuition congruence). rewrite L1. unfold read_grace_harmonics.
    split; [|split].
    + destruct (open_level2 (file o1)); discriminate.
    + destruct (open_level2 (file o1)); exact SM.
    + intros I N O. specialize (FE I N). injection FE as ->. cbn [file set_file]. rewrite O. reflexivity.
Qed.
(** a failing reader leaves the object as it is, but for the name of the file; a file without a header has replaced coefficients, date and month *)
Theorem C133_failed_reader : forall (o : hobj) f mm k e, In f names -> f <> ""%string -> lmax o = Some k ->
  (open_level2 (Some f) = Err e \/ (open_level2 (Some f) = Ok tt /\ read_level2 (Some f) k mm = Err e)) ->
  snd (from_SHM o f mm) = Some e /\ same_but_file (fst (from_SHM o f mm)) o.
Proof.
  intros o f mm k e I N L E. unfold FileObjModel.from_SHM. rewrite find_exact by assumption. cbn [file set_file lmax]. unfold read_grace_harmonics. rewrite L.
  destruct E as [E|[E1 E2]]; [rewrite E|rewrite E1; cbn [bind]; rewrite E2]; cbn [fst snd bind]; (split; [reflexivity|same]).
Qed.
Theorem C133_no_header : forall (o : hobj) f mm k d, In f names -> f <> ""%string -> lmax o = Some k -> open_level2 (Some f) = Ok tt -> read_level2 (Some f) k mm = Ok d -> s_header d = None ->
  snd (from_SHM o f mm) = Some KeyError /\ clm (fst (from_SHM o f mm)) = Some (s_clm d) /\ FileObjModel.time (fst (from_SHM o f mm)) = Some (s_time d)
  /\ header (fst (from_SHM o f mm)) = header o /\ l_axis (fst (from_SHM o f mm)) = l_axis o.
Proof.
  intros o f mm k d I N L O R HD. unfold FileObjModel.from_SHM. rewrite find_exact by assumption. cbn [file set_file lmax]. unfold read_grace_harmonics. rewrite O, L. cbn [bind]. rewrite R, HD. cbn. repeat split; reflexivity.
Qed.

(** *** from_file: a new object; the one it is called on gets the name of the file only *)
Notation from_file := (from_file like read_icgem read_gfc names).
Theorem C133_from_file : forall (o : hobj) f k date td, same_but_file (fst (from_file o f k date td)) o
  /\ (In f names -> f <> ""%string ->
      match k with
      | Gfc => forall d, read_icgem (Some f) td = Ok d -> exists n, snd (from_file o f k date td) = Ok (Some n) /\ clm n = Some (g_clm d) /\ lmax n = Some (g_max d)
               /\ FileObjModel.time n = None /\ month n = None
      | SHM => snd (from_file o f k date td) = Err TypeError
      | Unknown => snd (from_file o f k date td) = Ok None
      end).
Proof.
  intros o f k date td. pose proof (find_same o f) as SM. pose proof (find_exact o f) as FE. unfold FileObjModel.from_file. destruct (find_file o f) as [o1 [e|]].
  - cbn [fst snd] in *. split; [exact SM|]. intros I N. specialize (FE I N). discriminate.
  - cbn [fst] in SM. split.
    + destruct k; cbn [fst]; try exact SM. destruct (FileObjModel.from_gfc _ _ _ _ _ _ _ _) as [n [e|]]; exact SM.
    + intros I N. destruct k; [|reflexivity|reflexivity]. intros d R. destruct (C133_undated (new_object None None) f td d I N R) as (n & E & P). rewrite E. exists n. cbn [snd]. intuition congruence.
Qed.
(** refuted: level-2 files can never be read this way, and ICGEM files never get a date: the parameter date has no effect *)
Theorem C133_from_file_never : forall (o : hobj) f td n,
  (forall date, snd (from_file o f SHM date td) <> Ok (Some n))
  /\ from_file o f Gfc true td = from_file o f Gfc false td
  /\ (forall date, snd (from_file o f Gfc date td) = Ok (Some n) -> FileObjModel.time n = None /\ month n = None).
Proof.
  intros o f td n. split; [|split; [reflexivity|]].
  - intros date. unfold FileObjModel.from_file. destruct (find_file o f) as [o1 [e|]]; discriminate.
  - intros date. unfold FileObjModel.from_file. destruct (find_file o f) as [o1 [e|]]; [discriminate|].
    unfold FileObjModel.from_gfc. pose proof (find_same (new_object None None) f) as SM. destruct (find_file (new_object None None) f) as [o2 [e|]]; [discriminate|].
    destruct (read_icgem (file o2) td); [|discriminate]. cbn [snd]. intros E. injection E as <-. unfold same_but_file in SM. cbn in SM. cbn. intuition congruence.
Qed.
End P.

(** *** months of level-2 files: a file of a whole calendar month gets the number of that month (the date is the one of C62: middle of the days, the first of January counted as one) *)
Theorem C133_whole_month : forall y m, y mod 4000 <> 0 -> 1 <= m <= 12 ->
  calendar_to_grace (tdec (year_len y) (mkper y (inject_Z (before_month (greg_leap y) m + 1)) y (inject_Z (before_month (greg_leap y) m + month_len (greg_leap y) m)))) 1
  = 12 * (y - 2002) + m.
Proof.
  intros y m Y M. apply grace_twelfth; unfold tdec, mid_day; cbn [p_sy p_sd p_ey p_ed]; rewrite Z.sub_diag, Z.mul_0_l; rewrite year_len_eq;
  assert (I : In m [1;2;3;4;5;6;7;8;9;10;11;12]) by (cbn [In]; lia); cbn [In] in I; generalize (inject_Z y); intros a;
  destruct (greg_leap y); repeat (destruct I as [<-|I]; [|]); try destruct I;
  unfold inject_Z; cbn [Z.sub Z.opp Z.add Z.pos_sub];
  match goal with |- (a + ?x <= a + ?b)%Q => assert (X : (x <= b)%Q) by (vm_compute; discriminate); lra
                | |- (a + ?b < a + ?x)%Q => assert (X : (b < x)%Q) by (vm_compute; reflexivity); lra end.
Qed.
(** refuted: two files whose middles fall in the same twelfth of a year get the same number, as 2015 days 91-120 and 102-131 (no adjustment of months is made) *)
Theorem C133_same_month : forall y j t1 t2, (inject_Z y + inject_Z (j - 1) / 12 <= t1)%Q -> (t1 < inject_Z y + inject_Z j / 12)%Q ->
  (inject_Z y + inject_Z (j - 1) / 12 <= t2)%Q -> (t2 < inject_Z y + inject_Z j / 12)%Q -> calendar_to_grace t1 1 = calendar_to_grace t2 1.
Proof. intros y j t1 t2 A B C D. rewrite (grace_twelfth y j t1 A B), (grace_twelfth y j t2 C D). reflexivity. Qed.
Example C133_april_2015 : calendar_to_grace (tdec 365 (mkper 2015 91 2015 120)) 1 = 160 /\ calendar_to_grace (tdec 365 (mkper 2015 102 2015 131)) 1 = 160 /\ 160 = 12 * (2015 - 2002) + 4.
Proof. vm_compute. repeat split; reflexivity. Qed.

(** the hypotheses are met: a directory with a model and a level-2 file *)
Definition dir : list string := ["model.gfc"; "GSM-2_2015091-2015120_GRAC_UTCSR_BA01_0600"]%string.
Definition lk (f g : string) : bool := String.eqb f "MODEL.GFC" && String.eqb g "model.gfc".
Definition icg : icgem nat Z string := mki 7%nat 8%nat 60 3986 6378 "tide_free"%string.
Definition ri (f : option string) (t : option string) : res (icgem nat Z string) := Ok icg.
Definition rg (f : option string) (t : option string) : res (icgem nat Z string * Q) := Ok (icg, 2015%Q).
Definition op2 (f : option string) : res unit := Ok tt.
Definition rl2 (f : option string) (k : Z) (mm : option Z) : res (level2 nat string) := Ok (mks 1%nat 2%nat (tdec 365 (mkper 2015 91 2015 120)) (Some "h"%string)).
Example C133_meets :
  (exists o, from_gfc lk ri rg dir (new_object None None) "MODEL.GFC" false None = (o, None) /\ file o = Some "model.gfc"%string /\ lmax o = Some 60 /\ FileObjModel.time o = None)
  /\ snd (from_gfc lk ri rg dir (new_object None None) "model.gfc" true None) = Some KeyError
  /\ (exists o, from_SHM lk op2 rl2 dir (new_object (S := Z) (Some 60) (Some 60)) "GSM-2_2015091-2015120_GRAC_UTCSR_BA01_0600" (Some 30) = (o, None) /\ month o = Some 160 /\ mmax o = Some 60)
  /\ snd (from_file lk ri rg dir (new_object None None) "GSM-2_2015091-2015120_GRAC_UTCSR_BA01_0600" SHM true None) = Err TypeError.
Proof. repeat split; try reflexivity; eexists; repeat split; reflexivity. Qed.
