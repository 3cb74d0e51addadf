(** C93 least squares mascon fit (scripts/calc_mascon.py), C94 sensitivity kernels (scripts/calc_sensitivity_kernel.py). *)
From Coq Require Import Reals Lra Lia String List FinFun ZifyBool ZifyNat.
From Verif Require Import Base UnitsModel UnitsProofs GaussModel SummationModel SummationProofs GenModel DestripeModel DestripeProofs LinAlg Lstsq MasconFitModel MasconFitProofs.
Import ListNotations.
Close Scope Z_scope.
Open Scope R_scope.

(** ** Specification *)
Definition zero_coefs : coefs := fun _ _ _ => 0.
(** the coefficients of mascon k used in the fit *)
Definition mascon_of LMAX MM ocean (files : list coefs) (k : nat) : coefs := mascon_coefs LMAX MM ocean (nth k files zero_coefs).
Definition area_of LMAX (files : list coefs) (k : nat) : R := total_area LMAX (nth k files zero_coefs).
(** mixture of the mascons with amplitudes x (cm of water) *)
Definition mixture LMAX MM ocean files (x : nat -> R) : coefs := fun cs l m => rsum (List.length files) (fun k => x k * mascon_of LMAX MM ocean files k cs l m).
(** weight of a degree in the fit to mass: smoothing times (2l+1)/(1+k_l) *)
Definition mass_weight (w kl : list R) (l : nat) : R := nth l w 0 * ((2 * INR l + 1) / (1 + nth l kl 0)).
(** squared misfit over all harmonics of degree LMIN to LMAX and order up to MM *)
Definition misfit LMIN LMAX MM w kl ocean files (Y : coefs) (x : nat -> R) : R :=
  hsum LMIN LMAX MM (fun cs l m => (mass_weight w kl l * (Y cs l m - mixture LMAX MM ocean files x cs l m)) ^ 2).
(** the corrected coefficients of month t *)
Definition corrected (grace gia remove construct : nat -> coefs) (t : nat) : coefs := fun cs l m => grace t cs l m - gia t cs l m - remove t cs l m - construct t cs l m.
Definition in_range LMIN LMAX MM (cs : bool) (l m : nat) : Prop := (LMIN <= l <= LMAX)%nat /\ (m <= l)%nat /\ (m <= MM)%nat /\ (cs = true -> (1 <= m)%nat).
Definition order_of (MMAX : option nat) (LMAX : nat) : nat := match MMAX with Some (S k) => S k | _ => LMAX end.
Definition lstsq_solver (S : string) : Prop := (S = "lstsq" \/ S = "gelsd" \/ S = "gelsy" \/ S = "gelss")%string.
Definition no_mixture LMIN LMAX MM ocean files : Prop := forall x, (forall cs l m, in_range LMIN LMAX MM cs l m -> mixture LMAX MM ocean files x cs l m = 0) -> forall k, (k < List.length files)%nat -> x k = 0.

(** ** Proofs *)
Lemma idx_range LMIN LMAX MM i : (i < List.length (harm_idx LMIN LMAX MM))%nat -> exists cs l m, nth i (harm_idx LMIN LMAX MM) qd = (cs, l, m) /\ in_range LMIN LMAX MM cs l m.
Proof. intros H. destruct (nth i (harm_idx LMIN LMAX MM) qd) as [[cs l] m] eqn:E. exists cs, l, m. split; [reflexivity|]. apply idx_in. rewrite <- E. apply nth_In. exact H. Qed.
Lemma idx_pos LMIN LMAX MM : (LMIN <= LMAX)%nat -> (0 < List.length (harm_idx LMIN LMAX MM))%nat.
Proof.
  intros H. assert (X : In (false, LMIN, 0%nat) (harm_idx LMIN LMAX MM)) by (apply idx_in; repeat split; try lia; discriminate). destruct (harm_idx LMIN LMAX MM); [elim X|cbn; lia].
Qed.
Lemma in_range_idx LMIN LMAX MM cs l m : in_range LMIN LMAX MM cs l m -> exists i, (i < List.length (harm_idx LMIN LMAX MM))%nat /\ nth i (harm_idx LMIN LMAX MM) qd = (cs, l, m).
Proof. intros H. apply idx_in in H. apply In_nth with (d := qd) in H. exact H. Qed.

Section Fit.
Context (LMIN LMAX MM : nat) (kl w : list R) (ocean : option coefs) (files : list coefs).
Notation idx := (harm_idx LMIN LMAX MM).
Notation p := (List.length files).
Notation n := (List.length idx).
Definition MA1 (k i : nat) : R := row idx (mascon_of LMAX MM ocean files k) i * row idx (fun _ l _ => nth l w 0) i * row idx (fun _ l _ => fact_of kl l) i.
Definition fit1 (i : nat) : R := row idx (fun _ l _ => nth l w 0) i * row idx (fun _ l _ => fact_of kl l) i.
Lemma fit1_at i cs l m : (i < n)%nat -> nth i idx qd = (cs, l, m) -> fit1 i = mass_weight w kl l.
Proof. intros H E. unfold fit1. rewrite !row_at, E by exact H. reflexivity. Qed.
Lemma comb1_at x i cs l m : (i < n)%nat -> nth i idx qd = (cs, l, m) -> comb p MA1 x i = mass_weight w kl l * mixture LMAX MM ocean files x cs l m.
Proof.
  intros H E. unfold comb, mixture. rewrite <- rsum_scal. apply rsum_ext. intros k _. unfold MA1. rewrite !row_at, E by exact H. cbn [fst snd]. unfold mass_weight, fact_of. ring.
Qed.
Lemma misfit_dot (Y : coefs) x : (LMIN <= LMAX)%nat ->
  dot n (fun i => fit1 i * row idx Y i - comb p MA1 x i) (fun i => fit1 i * row idx Y i - comb p MA1 x i) = misfit LMIN LMAX MM w kl ocean files Y x.
Proof.
  intros HL. unfold dot, misfit. apply rsum_rows; [lia|]. intros i Hi. destruct (idx_range LMIN LMAX MM i Hi) as (cs & l & m & E & _).
  rewrite (fit1_at i cs l m Hi E), (comb1_at x i cs l m Hi E), row_at, E by exact Hi. cbn [fst snd]. ring.
Qed.
End Fit.

Lemma kernel_len LMIN LMAX MM : (MM <= LMAX)%nat -> (LMIN <= MM + 1)%nat -> (n_harm LMIN LMAX MM <? 0)%Z = false /\ Z.to_nat (n_harm LMIN LMAX MM) = List.length (harm_idx LMIN LMAX MM).
Proof. intros H1 H2. rewrite count_ok by assumption. split; [lia|apply Nat2Z.id]. Qed.
Lemma solver_lstsq S : lstsq_solver S -> (S =? "inv")%string = false /\ ((S =? "lstsq") || (S =? "gelsd") || (S =? "gelsy") || (S =? "gelss"))%string = true.
Proof. intros [->|[->|[->| ->]]]; split; reflexivity. Qed.
Lemma kernel1 LMIN LMAX MM kl w ocean files S : (MM <= LMAX)%nat -> (LMIN <= MM + 1)%nat -> (LMIN <= LMAX)%nat -> lstsq_solver S ->
  mascon_kernel LMIN LMAX MM kl w ocean files 1 S = Ok (fun i k => lstsq (List.length files) (List.length (harm_idx LMIN LMAX MM)) (MA1 LMIN LMAX MM kl w ocean files)
    (fun i' => if (i' =? i)%nat then fit1 LMIN LMAX MM kl w i else 0) k * area_of LMAX files k).
Proof.
  intros H1 H2 H3 HS. unfold mascon_kernel. destruct (kernel_len LMIN LMAX MM H1 H2) as [-> ->]. rewrite Nat.ltb_irrefl. pose proof (idx_pos LMIN LMAX MM H3) as P.
  replace (_ =? 0)%nat with false by lia. cbn [fit_matrix Z.eqb Pos.eqb bind fst snd]. unfold solve_kernel. destruct (solver_lstsq S HS) as [-> ->]. reflexivity.
Qed.

(** the run: masses, errors and areas from the kernel *)
Lemma calc_run LMIN LMAX MMAX kl RAD ocean files METHOD SOLVER grace gia remove construct delta w A : let MM := order_of MMAX LMAX in
  (MM <= LMAX)%nat -> (LMIN <= MM + 1)%nat ->
  smoothing RAD LMAX = Ok w -> mascon_kernel LMIN LMAX MM kl w ocean files METHOD SOLVER = Ok A ->
  exists mass err area, calc_mascon LMIN LMAX MMAX kl RAD ocean files METHOD SOLVER grace gia remove construct delta = Ok (mass, err, area) /\
    (forall k t, mass k t = rsum (List.length (harm_idx LMIN LMAX MM)) (fun i => A i k * row (harm_idx LMIN LMAX MM) (corrected grace gia remove construct t) i) / 10 ^ 15) /\
    (forall k, err k = sqrt (rsum (List.length (harm_idx LMIN LMAX MM)) (fun i => (row (harm_idx LMIN LMAX MM) delta i * A i k) ^ 2)) / 10 ^ 15) /\
    (forall k, area k = area_of LMAX files k / 10 ^ 10).
Proof.
  intros MM H1 H2 HW HK. unfold calc_mascon. rewrite HW. cbn [bind]. fold (order_of MMAX LMAX). fold MM. rewrite HK. cbn [bind]. destruct (kernel_len LMIN LMAX MM H1 H2) as [_ ->].
  do 3 eexists. split; [reflexivity|]. repeat split.
Qed.
Lemma run_inv LMIN LMAX MMAX kl RAD ocean files METHOD SOLVER grace gia remove construct delta r : calc_mascon LMIN LMAX MMAX kl RAD ocean files METHOD SOLVER grace gia remove construct delta = Ok r ->
  exists w A, smoothing RAD LMAX = Ok w /\ mascon_kernel LMIN LMAX (order_of MMAX LMAX) kl w ocean files METHOD SOLVER = Ok A.
Proof.
  unfold calc_mascon. fold (order_of MMAX LMAX). destruct (smoothing RAD LMAX) as [w|e]; [|discriminate]. cbn [bind]. destruct (mascon_kernel _ _ _ _ _ _ _ _ _) as [A|e] eqn:E; [|discriminate]. eauto.
Qed.

Lemma fit_ok LMIN LMAX MMAX kl RAD ocean files SOLVER grace gia remove construct delta w : let MM := order_of MMAX LMAX in
  (MM <= LMAX)%nat -> (LMIN <= MM + 1)%nat -> (LMIN <= LMAX)%nat -> lstsq_solver SOLVER -> smoothing RAD LMAX = Ok w ->
  exists mass err area, calc_mascon LMIN LMAX MMAX kl RAD ocean files 1 SOLVER grace gia remove construct delta = Ok (mass, err, area) /\
    forall t, exists x, (forall k, mass k t = x k * area_of LMAX files k / 10 ^ 15) /\
      is_lstsq (List.length files) (List.length (harm_idx LMIN LMAX MM)) (MA1 LMIN LMAX MM kl w ocean files)
        (fun i => fit1 LMIN LMAX MM kl w i * row (harm_idx LMIN LMAX MM) (corrected grace gia remove construct t) i) x.
Proof.
  intros MM H1 H2 H3 HS HW. pose proof (kernel1 LMIN LMAX MM kl w ocean files SOLVER H1 H2 H3 HS) as HK.
  destruct (calc_run LMIN LMAX MMAX kl RAD ocean files 1 SOLVER grace gia remove construct delta w _ H1 H2 HW HK) as (mass & err & area & E & M & _ & _). exists mass, err, area. split; [exact E|].
  intros t. eexists. split; [|apply lstsq_units]. intros k. rewrite M. f_equal. rewrite Rmult_comm, <- rsum_scal. apply rsum_ext. intros i _. fold MM. ring.
Qed.

(** ** C93 *)
(** method 1: mass = amplitude times area, where the amplitudes are the least squares fit of the mascons to the corrected coefficients weighted as smoothed mass
    (among several best fits, the smallest one) *)
Theorem C93_least_squares : forall LMIN LMAX MMAX kl RAD ocean files SOLVER grace gia remove construct delta w, let MM := order_of MMAX LMAX in
  (MM <= LMAX)%nat -> (LMIN <= MM + 1)%nat -> (LMIN <= LMAX)%nat -> lstsq_solver SOLVER -> smoothing RAD LMAX = Ok w ->
  exists mass err area, calc_mascon LMIN LMAX MMAX kl RAD ocean files 1 SOLVER grace gia remove construct delta = Ok (mass, err, area) /\
    forall t, exists x, (forall k, mass k t = x k * area_of LMAX files k / 10 ^ 15) /\
      (forall z, misfit LMIN LMAX MM w kl ocean files (corrected grace gia remove construct t) x <= misfit LMIN LMAX MM w kl ocean files (corrected grace gia remove construct t) z) /\
      (forall z, misfit LMIN LMAX MM w kl ocean files (corrected grace gia remove construct t) z = misfit LMIN LMAX MM w kl ocean files (corrected grace gia remove construct t) x ->
        rsum (List.length files) (fun k => x k ^ 2) <= rsum (List.length files) (fun k => z k ^ 2)).
Proof.
  intros LMIN LMAX MMAX kl RAD ocean files SOLVER grace gia remove construct delta w MM H1 H2 H3 HS HW.
  destruct (fit_ok LMIN LMAX MMAX kl RAD ocean files SOLVER grace gia remove construct delta w H1 H2 H3 HS HW) as (mass & err & area & E & M). exists mass, err, area. split; [exact E|].
  intros t. destruct (M t) as (x & Mx & Lx). exists x. fold MM in Lx. set (Y := corrected grace gia remove construct t) in *. split; [exact Mx|]. split.
  - intros z. rewrite <- !misfit_dot by exact H3. apply lstsq_min. exact Lx.
  - intros z Ez. rewrite <- !misfit_dot in Ez by exact H3. destruct Lx as [N R]. rewrite (normal_min _ _ _ _ x N z) in Ez.
    assert (D : dot (List.length (harm_idx LMIN LMAX MM)) (fun i => comb (List.length files) (MA1 LMIN LMAX MM kl w ocean files) x i - comb (List.length files) (MA1 LMIN LMAX MM kl w ocean files) z i)
       (fun i => comb (List.length files) (MA1 LMIN LMAX MM kl w ocean files) x i - comb (List.length files) (MA1 LMIN LMAX MM kl w ocean files) z i) = 0) by lra.
    assert (S : forall u, rsum (List.length files) (fun k => u k ^ 2) = dot (List.length files) u u) by (intros u; apply rsum_ext; intros; ring). rewrite !S.
    apply (lstsq_short _ _ _ _ x (conj N R)). intros j Lj. rewrite <- (N j Lj). apply dot_ext; [reflexivity|]. intros i Li. pose proof (dot_self_zero _ _ D i Li) as Q. cbv beta in Q. lra.
Qed.

(** independent mascons: a month that is a mixture of the mascons gives back the mass of each (no leakage between mascons) *)
Theorem C93_recovers : forall LMIN LMAX MMAX kl RAD ocean files SOLVER grace gia remove construct delta w, let MM := order_of MMAX LMAX in
  (MM <= LMAX)%nat -> (LMIN <= MM + 1)%nat -> (LMIN <= LMAX)%nat -> lstsq_solver SOLVER -> smoothing RAD LMAX = Ok w ->
  (forall l, (LMIN <= l <= LMAX)%nat -> mass_weight w kl l <> 0) -> no_mixture LMIN LMAX MM ocean files ->
  exists mass err area, calc_mascon LMIN LMAX MMAX kl RAD ocean files 1 SOLVER grace gia remove construct delta = Ok (mass, err, area) /\
    forall t x, (forall cs l m, in_range LMIN LMAX MM cs l m -> corrected grace gia remove construct t cs l m = mixture LMAX MM ocean files x cs l m) ->
      forall k, (k < List.length files)%nat -> mass k t = x k * area_of LMAX files k / 10 ^ 15.
Proof.
  intros LMIN LMAX MMAX kl RAD ocean files SOLVER grace gia remove construct delta w MM H1 H2 H3 HS HW Hw Hi.
  destruct (fit_ok LMIN LMAX MMAX kl RAD ocean files SOLVER grace gia remove construct delta w H1 H2 H3 HS HW) as (mass & err & area & E & M). exists mass, err, area. split; [exact E|].
  intros t x HY k Hk. destruct (M t) as (y & My & Ly). rewrite My. f_equal. f_equal. fold MM in Ly. refine (is_lstsq_exact _ _ _ _ y x _ Ly _ k Hk).
  - intros z Hz. apply Hi. intros cs l m Hr. destruct (in_range_idx LMIN LMAX MM cs l m Hr) as (i & Li & Ei). specialize (Hz i Li). rewrite (comb1_at LMIN LMAX MM kl w ocean files z i cs l m Li Ei) in Hz.
    apply Rmult_integral in Hz. destruct Hz as [Hz|Hz]; [|exact Hz]. elim (Hw l (proj1 Hr) Hz).
  - intros i Li. destruct (idx_range LMIN LMAX MM i Li) as (cs & l & m & Ei & Hr). rewrite (fit1_at LMIN LMAX MM kl w i cs l m Li Ei), (comb1_at LMIN LMAX MM kl w ocean files x i cs l m Li Ei), row_at, Ei by exact Li.
    cbn [fst snd]. f_equal. apply HY. exact Hr.
Qed.

(** every method and solver: the masses of a month are linear in the corrected coefficients of that month, and depend on nothing else of the data *)
Theorem C93_linear : forall LMIN LMAX MMAX kl RAD ocean files METHOD SOLVER grace gia remove construct delta grace' gia' remove' construct' delta' grace2 gia2 remove2 construct2 delta2
    mass err area mass' err' area' mass2 err2 area2 a b t t' t2, let MM := order_of MMAX LMAX in
  (MM <= LMAX)%nat -> (LMIN <= MM + 1)%nat ->
  calc_mascon LMIN LMAX MMAX kl RAD ocean files METHOD SOLVER grace gia remove construct delta = Ok (mass, err, area) ->
  calc_mascon LMIN LMAX MMAX kl RAD ocean files METHOD SOLVER grace' gia' remove' construct' delta' = Ok (mass', err', area') ->
  calc_mascon LMIN LMAX MMAX kl RAD ocean files METHOD SOLVER grace2 gia2 remove2 construct2 delta2 = Ok (mass2, err2, area2) ->
  (forall cs l m, in_range LMIN LMAX MM cs l m -> corrected grace2 gia2 remove2 construct2 t2 cs l m = a * corrected grace gia remove construct t cs l m + b * corrected grace' gia' remove' construct' t' cs l m) ->
  forall k, mass2 k t2 = a * mass k t + b * mass' k t'.
Proof.
  intros LMIN LMAX MMAX kl RAD ocean files METHOD SOLVER grace gia remove construct delta grace' gia' remove' construct' delta' grace2 gia2 remove2 construct2 delta2 mass err area mass' err' area' mass2 err2 area2 a b t t' t2 MM H1 H2 E E' E2 HY k.
  destruct (run_inv _ _ _ _ _ _ _ _ _ _ _ _ _ _ _ E) as (w & A & HW & HK).
  destruct (calc_run LMIN LMAX MMAX kl RAD ocean files METHOD SOLVER grace gia remove construct delta w A H1 H2 HW HK) as (m1 & e1 & a1 & F & M & _).
  destruct (calc_run LMIN LMAX MMAX kl RAD ocean files METHOD SOLVER grace' gia' remove' construct' delta' w A H1 H2 HW HK) as (m1' & e1' & a1' & F' & M' & _).
  destruct (calc_run LMIN LMAX MMAX kl RAD ocean files METHOD SOLVER grace2 gia2 remove2 construct2 delta2 w A H1 H2 HW HK) as (m2 & e2 & a2 & F2 & M2 & _).
  rewrite E in F. rewrite E' in F'. rewrite E2 in F2. injection F as <- <- <-. injection F' as <- <- <-. injection F2 as <- <- <-. rewrite M, M', M2. fold MM.
  assert (X : rsum (List.length (harm_idx LMIN LMAX MM)) (fun i => A i k * row (harm_idx LMIN LMAX MM) (corrected grace2 gia2 remove2 construct2 t2) i) =
    a * rsum (List.length (harm_idx LMIN LMAX MM)) (fun i => A i k * row (harm_idx LMIN LMAX MM) (corrected grace gia remove construct t) i) +
    b * rsum (List.length (harm_idx LMIN LMAX MM)) (fun i => A i k * row (harm_idx LMIN LMAX MM) (corrected grace' gia' remove' construct' t') i)).
  { rewrite <- !rsum_scal, <- rsum_plus. apply rsum_ext. intros i Li. destruct (idx_range LMIN LMAX MM i Li) as (cs & l & m & Ei & Hr). rewrite !row_at, Ei by exact Li. cbn [fst snd]. rewrite (HY cs l m Hr). ring. }
  rewrite X. unfold Rdiv. ring.
Qed.

(** every method and solver: the error is the root sum of squares, over the harmonics, of the change of the mass when that one coefficient of the data is off by its error *)
Definition bump (delta : coefs) (cs : bool) (l m : nat) : coefs := fun cs' l' m' => if (Bool.eqb cs cs' && (l =? l') && (m =? m'))%nat then delta cs l m else 0.
Lemma idx_nodup LMIN LMAX MM : NoDup (harm_idx LMIN LMAX MM).
Proof.
  assert (G : forall cs s, NoDup s -> NoDup (flat_map (fun l => map (fun m => (cs, l, m)) (seq (b2n cs) (Nat.min MM l + 1 - b2n cs))) s)).
  { intros cs s. induction s as [|l s IH]; intros H; [constructor|]. inversion H as [|? ? N D]; subst. cbn [flat_map]. apply NoDup_app_intro.
    - apply FinFun.Injective_map_NoDup; [intros u v Q; injection Q; auto|apply seq_NoDup].
    - apply IH; exact D.
    - intros q Hq Hq'. apply in_map_iff in Hq. destruct Hq as (m & <- & _). apply in_flat_map in Hq'. destruct Hq' as (l' & Hl' & Hq'). apply in_map_iff in Hq'. destruct Hq' as (m' & Q & _). injection Q as -> _. contradiction. }
  unfold harm_idx. cbn [flat_map]. rewrite app_nil_r. apply NoDup_app_intro; [apply G, seq_NoDup|apply G, seq_NoDup|].
  intros q Hq Hq'. apply in_flat_map in Hq, Hq'. destruct Hq as (l & _ & Hq), Hq' as (l' & _ & Hq'). apply in_map_iff in Hq, Hq'. destruct Hq as (m & <- & _), Hq' as (m' & Q & _). discriminate.
Qed.
Lemma idx_unique LMIN LMAX MM i j : (i < List.length (harm_idx LMIN LMAX MM))%nat -> (j < List.length (harm_idx LMIN LMAX MM))%nat ->
  nth i (harm_idx LMIN LMAX MM) qd = nth j (harm_idx LMIN LMAX MM) qd -> i = j.
Proof. intros. apply (NoDup_nth (harm_idx LMIN LMAX MM) qd); auto using idx_nodup. Qed.
Lemma bump_row LMIN LMAX MM (d : coefs) i j cs l m : (i < List.length (harm_idx LMIN LMAX MM))%nat -> (j < List.length (harm_idx LMIN LMAX MM))%nat -> nth i (harm_idx LMIN LMAX MM) qd = (cs, l, m) ->
  row (harm_idx LMIN LMAX MM) (bump d cs l m) j = if (j =? i)%nat then d cs l m else 0.
Proof.
  intros Li Lj E. rewrite row_at by exact Lj. destruct (Nat.eqb_spec j i) as [->|N].
  - rewrite E. unfold bump. cbn [fst snd]. rewrite Bool.eqb_reflx, !Nat.eqb_refl. reflexivity.
  - destruct (nth j (harm_idx LMIN LMAX MM) qd) as [[cs' l'] m'] eqn:E'. unfold bump. cbn [fst snd]. destruct (_ && _)%bool eqn:Q; [|reflexivity]. elim N.
    apply (idx_unique LMIN LMAX MM); auto. rewrite E, E'. apply andb_true_iff in Q. destruct Q as [Q Q3]. apply andb_true_iff in Q. destruct Q as [Q1 Q2].
    apply Bool.eqb_prop in Q1. apply Nat.eqb_eq in Q2, Q3. congruence.
Qed.
(** the position of a harmonic *)
Lemma hsum_weights LMIN LMAX MM (A : nat -> R) : (LMIN <= LMAX + 1)%nat -> exists g : coefs, forall cs l m i, (i < List.length (harm_idx LMIN LMAX MM))%nat -> nth i (harm_idx LMIN LMAX MM) qd = (cs, l, m) -> g cs l m = A i.
Proof.
  intros HL. exists (fun cs l m => rsum (List.length (harm_idx LMIN LMAX MM)) (fun j => A j * row (harm_idx LMIN LMAX MM) (bump (fun _ _ _ => 1) cs l m) j)). intros cs l m i Li E.
  rewrite (rsum_ext _ _ (fun j => LinAlg.delta j i * A j)); [apply rsum_delta; exact Li|]. intros j Lj. rewrite (bump_row LMIN LMAX MM _ i j cs l m Li Lj E). unfold LinAlg.delta. destruct (j =? i)%nat; ring.
Qed.
Theorem C93_error : forall LMIN LMAX MMAX kl RAD ocean files METHOD SOLVER grace gia remove construct delta mass err area, let MM := order_of MMAX LMAX in
  (MM <= LMAX)%nat -> (LMIN <= MM + 1)%nat ->
  calc_mascon LMIN LMAX MMAX kl RAD ocean files METHOD SOLVER grace gia remove construct delta = Ok (mass, err, area) ->
  forall k t, exists change : coefs,
    (forall cs l m, in_range LMIN LMAX MM cs l m -> exists mass', change cs l m = mass' k t - mass k t /\
      calc_mascon LMIN LMAX MMAX kl RAD ocean files METHOD SOLVER (fun t cs' l' m' => grace t cs' l' m' + bump delta cs l m cs' l' m') gia remove construct delta = Ok (mass', err, area)) /\
    0 <= err k /\ err k ^ 2 = hsum LMIN LMAX MM (fun cs l m => change cs l m ^ 2).
Proof.
  intros LMIN LMAX MMAX kl RAD ocean files METHOD SOLVER grace gia remove construct delta mass err area MM H1 H2 E k t. destruct (run_inv _ _ _ _ _ _ _ _ _ _ _ _ _ _ _ E) as (w & A & HW & HK). fold MM in HK.
  destruct (calc_run LMIN LMAX MMAX kl RAD ocean files METHOD SOLVER grace gia remove construct delta w A H1 H2 HW HK) as (m1 & e1 & a1 & F & M & ER & _). rewrite E in F. injection F as <- <- <-. fold MM in M, ER.
  destruct (hsum_weights LMIN LMAX MM (fun i => row (harm_idx LMIN LMAX MM) delta i * A i k / 10 ^ 15) ltac:(lia)) as [g G]. exists g. split; [|split].
  - intros cs l m Hr. destruct (in_range_idx LMIN LMAX MM cs l m Hr) as (i & Li & Ei).
    destruct (calc_run LMIN LMAX MMAX kl RAD ocean files METHOD SOLVER (fun t cs' l' m' => grace t cs' l' m' + bump delta cs l m cs' l' m') gia remove construct delta w A H1 H2 HW HK) as (m2 & e2 & a2 & F2 & M2 & _).
    exists m2. split.
    + rewrite M, M2. fold MM. rewrite (G cs l m i Li Ei). rewrite row_at, Ei by exact Li. cbn [fst snd].
      assert (X : rsum (List.length (harm_idx LMIN LMAX MM)) (fun i => A i k * row (harm_idx LMIN LMAX MM) (corrected (fun t cs' l' m' => grace t cs' l' m' + bump delta cs l m cs' l' m') gia remove construct t) i) =
         rsum (List.length (harm_idx LMIN LMAX MM)) (fun i => A i k * row (harm_idx LMIN LMAX MM) (corrected grace gia remove construct t) i) + delta cs l m * A i k).
      { rewrite <- (rsum_delta (List.length (harm_idx LMIN LMAX MM)) i (fun j => delta cs l m * A j k) Li), <- rsum_plus. apply rsum_ext. intros j Lj.
        pose proof (bump_row LMIN LMAX MM delta i j cs l m Li Lj Ei) as B. rewrite row_at in B by exact Lj. rewrite !row_at by exact Lj. destruct (nth j (harm_idx LMIN LMAX MM) qd) as [[cs' l'] m']. cbn [fst snd] in *.
        unfold corrected. rewrite B. unfold LinAlg.delta. destruct (j =? i)%nat; ring. }
      rewrite X. unfold Rdiv. ring.
    + unfold calc_mascon in E, F2 |- *. fold (order_of MMAX LMAX) in *. rewrite HW in *. cbn [bind] in *. fold MM in E, F2 |- *. rewrite HK in *. cbn [bind] in *. injection E as _ <- <-. injection F2 as <- _ _. reflexivity.
  - rewrite ER. apply Rmult_le_pos; [apply sqrt_pos|left; apply Rinv_0_lt_compat, pow_lt; lra].
  - rewrite ER. unfold Rdiv. rewrite Rpow_mult_distr. rewrite <- Rsqr_pow2 at 1. rewrite Rsqr_sqrt by (apply rsum_nonneg; intros; apply pow2_ge_0). rewrite Rmult_comm, <- rsum_scal. apply rsum_rows; [lia|].
    intros i Li. destruct (idx_range LMIN LMAX MM i Li) as (cs & l & m & Ei & Hr). rewrite Ei. cbn [fst snd]. rewrite (G cs l m i Li Ei). unfold Rdiv. ring.
Qed.

(** solver "inv" needs as many mascons as harmonics; then the mixture reproduces every (weighted) coefficient exactly *)
Lemma rsum_ones n : rsum n (fun _ => 1) = INR n.
Proof. induction n as [|n IH]; [reflexivity|]. cbn [rsum]. rewrite IH, S_INR. reflexivity. Qed.
Lemma count_hsum LMIN LMAX MM : (LMIN <= LMAX + 1)%nat -> hsum LMIN LMAX MM (fun _ _ _ => 1) = INR (List.length (harm_idx LMIN LMAX MM)).
Proof. intros HL. rewrite <- rsum_ones. symmetry. apply rsum_rows; [exact HL|]. reflexivity. Qed.
Theorem C93_inv : forall LMIN LMAX MMAX kl RAD ocean files grace gia remove construct delta w, let MM := order_of MMAX LMAX in
  (MM <= LMAX)%nat -> (LMIN <= MM + 1)%nat -> (LMIN <= LMAX)%nat -> smoothing RAD LMAX = Ok w ->
  (INR (List.length files) <> hsum LMIN LMAX MM (fun _ _ _ => 1) -> calc_mascon LMIN LMAX MMAX kl RAD ocean files 1 "inv" grace gia remove construct delta = Err OtherExn) /\
  (forall mass err area, calc_mascon LMIN LMAX MMAX kl RAD ocean files 1 "inv" grace gia remove construct delta = Ok (mass, err, area) ->
    INR (List.length files) = hsum LMIN LMAX MM (fun _ _ _ => 1) /\
    forall t, exists x, (forall k, (k < List.length files)%nat -> mass k t = x k * area_of LMAX files k / 10 ^ 15) /\
      forall cs l m, in_range LMIN LMAX MM cs l m -> mass_weight w kl l * mixture LMAX MM ocean files x cs l m = mass_weight w kl l * corrected grace gia remove construct t cs l m).
Proof.
  intros LMIN LMAX MMAX kl RAD ocean files grace gia remove construct delta w MM H1 H2 H3 HW. set (n := List.length (harm_idx LMIN LMAX MM)). set (p := List.length files).
  assert (K : mascon_kernel LMIN LMAX MM kl w ocean files 1 "inv" = if negb (n =? p)%nat then Err OtherExn else
     do B <- inv p (fun i k => MA1 LMIN LMAX MM kl w ocean files k i); Ok (fun i k => dot n (B k) (fun i' => if (i' =? i)%nat then fit1 LMIN LMAX MM kl w i else 0) * area_of LMAX files k)).
  { unfold mascon_kernel. destruct (kernel_len LMIN LMAX MM H1 H2) as [-> ->]. rewrite Nat.ltb_irrefl. pose proof (idx_pos LMIN LMAX MM H3) as P. replace (_ =? 0)%nat with false by lia.
    cbn [fit_matrix Z.eqb Pos.eqb bind fst snd]. unfold solve_kernel. cbn [String.eqb Ascii.eqb Bool.eqb]. fold n p. destruct (negb (n =? p)%nat); [reflexivity|].
    change (fun i k => row (harm_idx LMIN LMAX MM) (mascon_coefs LMAX MM ocean (nth k files (fun _ _ _ => 0))) i * row (harm_idx LMIN LMAX MM) (fun _ l _ => nth l w 0) i * row (harm_idx LMIN LMAX MM) (fun _ l _ => fact_of kl l) i)
      with (fun i k => MA1 LMIN LMAX MM kl w ocean files k i). destruct (inv p _); reflexivity. }
  rewrite count_hsum by lia. fold n. split.
  - intros N. unfold calc_mascon. rewrite HW. cbn [bind]. fold (order_of MMAX LMAX). fold MM. rewrite K. destruct (Nat.eqb_spec n p) as [Q|Q]; [elim N; rewrite Q; reflexivity|reflexivity].
  - intros mass err area E. destruct (Nat.eqb_spec n p) as [Q|Q]; cbn [negb] in K.
    2: { unfold calc_mascon in E. rewrite HW in E. cbn [bind] in E. fold (order_of MMAX LMAX) in E. fold MM in E. rewrite K in E. discriminate. }
    split; [rewrite Q; reflexivity|]. destruct (inv p _) as [B|e] eqn:EB in K; cbn [bind] in K.
    2: { unfold calc_mascon in E. rewrite HW in E. cbn [bind] in E. fold (order_of MMAX LMAX) in E. fold MM in E. rewrite K in E. discriminate. }
    destruct (calc_run LMIN LMAX MMAX kl RAD ocean files 1 "inv" grace gia remove construct delta w _ H1 H2 HW K) as (m1 & e1 & a1 & F & M & _). rewrite E in F. injection F as <- <- <-. fold MM in M. fold n in M.
    intros t. set (Y := row (harm_idx LMIN LMAX MM) (corrected grace gia remove construct t)) in *. exists (fun k => rsum n (fun i => B k i * (fit1 LMIN LMAX MM kl w i * Y i))). split.
    + intros k _. rewrite M. f_equal. rewrite Rmult_comm, <- rsum_scal. apply rsum_ext. intros i Li. fold Y.
      assert (D : dot n (B k) (fun i' => if (i' =? i)%nat then fit1 LMIN LMAX MM kl w i else 0) = B k i * fit1 LMIN LMAX MM kl w i).
      { unfold dot. rewrite (rsum_ext _ _ (fun j => LinAlg.delta j i * (B k j * fit1 LMIN LMAX MM kl w i))); [apply (rsum_delta n i (fun j => B k j * fit1 LMIN LMAX MM kl w i)); exact Li|]. intros j _. unfold LinAlg.delta. destruct (j =? i)%nat; ring. }
      rewrite D. ring.
    + intros cs l m Hr. destruct (in_range_idx LMIN LMAX MM cs l m Hr) as (i & Li & Ei). rewrite <- (comb1_at LMIN LMAX MM kl w ocean files _ i cs l m Li Ei). rewrite <- (fit1_at LMIN LMAX MM kl w i cs l m Li Ei).
      replace (corrected grace gia remove construct t cs l m) with (Y i) by (unfold Y; rewrite row_at, Ei by exact Li; reflexivity). fold n in Li.
      pose proof (inv_ok _ _ _ EB) as I0. unfold comb. fold p. rewrite (rsum_ext p _ (fun j => rsum n (fun q => (MA1 LMIN LMAX MM kl w ocean files j i * B j q) * (fit1 LMIN LMAX MM kl w q * Y q)))) by (intros j _; rewrite Rmult_comm, <- rsum_scal; apply rsum_ext; intros; ring).
      rewrite rsum_swap. rewrite (rsum_ext n _ (fun q => LinAlg.delta q i * (fit1 LMIN LMAX MM kl w q * Y q))); [apply (rsum_delta n i (fun q => fit1 LMIN LMAX MM kl w q * Y q)); exact Li|].
      intros q Lq. transitivity (rsum p (fun j => (fit1 LMIN LMAX MM kl w q * Y q) * (MA1 LMIN LMAX MM kl w ocean files j i * B j q))); [apply rsum_ext; intros; ring|]. rewrite rsum_scal.
      specialize (I0 i q ltac:(lia) ltac:(lia)). unfold mmul in I0. rewrite I0. unfold LinAlg.delta. rewrite (Nat.eqb_sym q i). ring.
Qed.

(** method 2 (coefficients of the geoid): every mass is a common factor of the month times the last sine coefficient of the mascon, whatever the data *)
Theorem C93_geoid_refuted : forall LMIN LMAX MMAX kl RAD ocean files SOLVER grace gia remove construct delta w, let MM := order_of MMAX LMAX in
  (MM <= LMAX)%nat -> (1 <= MM)%nat -> (LMIN <= MM + 1)%nat -> (LMIN <= LMAX)%nat -> lstsq_solver SOLVER -> smoothing RAD LMAX = Ok w ->
  exists mass err area, calc_mascon LMIN LMAX MMAX kl RAD ocean files 2 SOLVER grace gia remove construct delta = Ok (mass, err, area) /\
    (forall t, exists c, forall k, (k < List.length files)%nat -> mass k t = c * mascon_of LMAX MM ocean files k true LMAX MM * area_of LMAX files k) /\
    (forall k t, (k < List.length files)%nat -> mascon_of LMAX MM ocean files k true LMAX MM = 0 -> mass k t = 0).
Proof.
  intros LMIN LMAX MMAX kl RAD ocean files SOLVER grace gia remove construct delta w MM H1 H0 H2 H3 HS HW. set (n := List.length (harm_idx LMIN LMAX MM)). set (p := List.length files).
  set (MA := fun k (i : nat) => row (harm_idx LMIN LMAX MM) (mascon_of LMAX MM ocean files k) (n - 1) * row (harm_idx LMIN LMAX MM) (fun _ l _ => nth l w 0) (n - 1)%nat).
  assert (K : mascon_kernel LMIN LMAX MM kl w ocean files 2 SOLVER = Ok (fun i k => lstsq p n MA (fun i' => if (i' =? i)%nat then row (harm_idx LMIN LMAX MM) (fun _ l _ => nth l w 0) i else 0) k * area_of LMAX files k)).
  { unfold mascon_kernel. destruct (kernel_len LMIN LMAX MM H1 H2) as [-> ->]. rewrite Nat.ltb_irrefl. pose proof (idx_pos LMIN LMAX MM H3) as P. replace (_ =? 0)%nat with false by lia.
    cbn [fit_matrix Z.eqb Pos.eqb bind fst snd]. unfold solve_kernel. destruct (solver_lstsq SOLVER HS) as [-> ->]. reflexivity. }
  destruct (calc_run LMIN LMAX MMAX kl RAD ocean files 2 SOLVER grace gia remove construct delta w _ H1 H2 HW K) as (mass & err & area & E & M & _). exists mass, err, area. split; [exact E|]. fold MM n in M.
  assert (G : forall t, exists c, forall k, (k < List.length files)%nat -> mass k t = c * mascon_of LMAX MM ocean files k true LMAX MM * area_of LMAX files k).
  { intros t. set (Y := row (harm_idx LMIN LMAX MM) (corrected grace gia remove construct t)) in *. pose proof (lstsq_units p n MA (row (harm_idx LMIN LMAX MM) (fun _ l _ => nth l w 0)) Y) as [_ [y Hy]]. cbv beta in Hy.
    exists (rsum n y * nth LMAX w 0 / 10 ^ 15). intros k Hk. specialize (Hy k Hk). rewrite M. fold Y.
    transitivity (rsum n (fun q => Y q * lstsq p n MA (fun i => if (i =? q)%nat then row (harm_idx LMIN LMAX MM) (fun _ l _ => nth l w 0) q else 0) k) * area_of LMAX files k / 10 ^ 15).
    { f_equal. rewrite Rmult_comm, <- rsum_scal. apply rsum_ext. intros; ring. }
    rewrite Hy. unfold comb, rowsof, MA. pose proof (idx_pos LMIN LMAX MM H3) as P. rewrite !row_at by (unfold n; lia). unfold n. rewrite !last_idx by lia. cbn [fst snd]. rewrite Nat.min_l by exact H1. fold n.
    rewrite (rsum_ext n _ (fun i => (mascon_of LMAX MM ocean files k true LMAX MM * nth LMAX w 0) * y i)) by (intros; ring). rewrite rsum_scal. unfold Rdiv. ring. }
  split; [exact G|]. intros k t Hk Z. destruct (G t) as [c C]. rewrite (C k Hk), Z. ring.
Qed.

(** fewer orders than LMIN - 1: the arrays are too short for the harmonics, the run fails *)
Theorem C93_few_orders_refuted : forall LMIN LMAX MMAX kl RAD ocean files METHOD SOLVER grace gia remove construct delta, (order_of MMAX LMAX + 1 < LMIN)%nat -> (LMIN <= LMAX)%nat ->
  exists e, calc_mascon LMIN LMAX MMAX kl RAD ocean files METHOD SOLVER grace gia remove construct delta = Err e.
Proof.
  intros LMIN LMAX MMAX kl RAD ocean files METHOD SOLVER grace gia remove construct delta H1 H2. unfold calc_mascon. fold (order_of MMAX LMAX). destruct (smoothing RAD LMAX) as [w|e]; cbn [bind]; [|eauto].
  pose proof (count_bad LMIN LMAX _ H1 H2) as C. unfold mascon_kernel. destruct (Z.ltb_spec (n_harm LMIN LMAX (order_of MMAX LMAX)) 0); [cbn [bind]; eauto|]. replace (_ <? _)%nat with true by lia. cbn [bind]. eauto.
Qed.
(** unknown fit method or solver *)
Theorem C93_unknown : forall LMIN LMAX MMAX kl RAD ocean files METHOD SOLVER grace gia remove construct delta w, let MM := order_of MMAX LMAX in
  (MM <= LMAX)%nat -> (LMIN <= MM + 1)%nat -> (LMIN <= LMAX)%nat -> smoothing RAD LMAX = Ok w ->
  (METHOD <> 1 /\ METHOD <> 2)%Z \/ ~ lstsq_solver SOLVER /\ SOLVER <> "inv"%string ->
  calc_mascon LMIN LMAX MMAX kl RAD ocean files METHOD SOLVER grace gia remove construct delta = Err UnboundLocalError.
Proof.
  intros LMIN LMAX MMAX kl RAD ocean files METHOD SOLVER grace gia remove construct delta w MM H1 H2 H3 HW H. unfold calc_mascon. fold (order_of MMAX LMAX). fold MM. rewrite HW. cbn [bind]. unfold mascon_kernel.
  destruct (kernel_len LMIN LMAX MM H1 H2) as [-> ->]. rewrite Nat.ltb_irrefl. pose proof (idx_pos LMIN LMAX MM H3) as P. replace (_ =? 0)%nat with false by lia. unfold fit_matrix. destruct H as [[N1 N2]|[N1 N2]].
  - replace (METHOD =? 1)%Z with false by lia. replace (METHOD =? 2)%Z with false by lia. reflexivity.
  - assert (S0 : forall p n A f, solve_kernel SOLVER p n A f = Err UnboundLocalError).
    { intros. unfold solve_kernel. rewrite (proj2 (String.eqb_neq _ _) N2). destruct (_ || _)%bool eqn:Q; [|reflexivity]. elim N1. rewrite !Bool.orb_true_iff, !String.eqb_eq in Q. unfold lstsq_solver. tauto. }
    destruct (METHOD =? 1)%Z; cbn [bind fst snd]; [rewrite S0; reflexivity|]. destruct (METHOD =? 2)%Z; cbn [bind fst snd]; [rewrite S0; reflexivity|reflexivity].
Qed.

(** redistribution over the ocean makes every mascon conserve mass, and changes no coefficient otherwise than by a multiple of the ocean field *)
Theorem C93_conserves : forall LMAX MM (o : coefs) files k, o false 0%nat 0%nat <> 0 ->
  mascon_of LMAX MM (Some o) files k false 0%nat 0%nat = 0 /\
  (forall cs l m, (m <= MM)%nat -> (m <= l)%nat -> (l <= LMAX)%nat ->
    mascon_of LMAX MM (Some o) files k cs l m = nth k files zero_coefs cs l m - nth k files zero_coefs false 0%nat 0%nat / o false 0%nat 0%nat * o cs l m).
Proof.
  intros LMAX MM o files k Ho. assert (G : forall cs l m, (m <= MM)%nat -> (m <= l)%nat -> (l <= LMAX)%nat ->
    mascon_of LMAX MM (Some o) files k cs l m = nth k files zero_coefs cs l m - nth k files zero_coefs false 0%nat 0%nat / o false 0%nat 0%nat * o cs l m).
  { intros cs l m A B C. unfold mascon_of, mascon_coefs, redistribute. replace ((m <=? MM) && (m <=? l) && (l <=? LMAX))%nat%bool with true by (symmetry; lia). reflexivity. }
  split; [|exact G]. rewrite G by lia. field. exact Ho.
Qed.

(** the hypotheses of C93_recovers are met: two mascons, degrees 1 and 2, no smoothing *)
Definition two_mascons : list coefs := [fun (cs : bool) (l m : nat) => if cs then 0 else if (l =? 0)%nat then 1 else if ((l =? 1)%nat && (m =? 0)%nat)%bool then 2 else 0;
                                        fun (cs : bool) (l m : nat) => if cs then (if ((l =? 2)%nat && (m =? 1)%nat)%bool then 3 else 0) else if (l =? 0)%nat then 1 else 0].
Example C93_nonvacuous : let MM := order_of None 2 in (MM <= 2)%nat /\ (1 <= MM + 1)%nat /\ lstsq_solver "lstsq" /\ smoothing 0 2 = Ok (repeat 1 3) /\
  (forall l, (1 <= l <= 2)%nat -> mass_weight (repeat 1 3) [0; 0; 0] l <> 0) /\ no_mixture 1 2 MM None two_mascons /\ area_of 2 two_mascons 0 <> 0.
Proof.
  cbv zeta. unfold order_of. split; [lia|]. split; [lia|]. split; [left; reflexivity|]. split; [unfold smoothing; destruct (Req_EM_T 0 0) as [_|N]; [reflexivity|elim N; reflexivity]|]. split; [|split].
  - intros l Hl. assert (l = 1 \/ l = 2)%nat as [->| ->] by lia; unfold mass_weight; cbn; lra.
  - intros x H k Hk. assert (H0 := H false 1%nat 0%nat ltac:(repeat split; try lia; discriminate)). assert (H1 := H true 2%nat 1%nat ltac:(repeat split; try lia; auto)).
    unfold mixture, mascon_of, mascon_coefs in H0, H1. cbn in H0, H1. cbn in Hk. assert (k = 0 \/ k = 1)%nat as [->| ->] by lia; lra.
  - unfold area_of, total_area. cbn [nth two_mascons]. cbn [Nat.eqb]. assert (0 < a_axis (earth 2)) by (unfold earth, units_init, a_axis; cbn; unfold a_default; lra). pose proof (rad_pos _ H). pose proof (rho_pos _ H). pose proof PI_RGT_0.
    set (a := rad_e (earth 2)) in *. assert (0 < a ^ 3) by (apply pow_lt; lra). generalize dependent (a ^ 3). generalize dependent (rho_e (earth 2)). generalize dependent PI. intros q Hq r Hr b Hb. apply Rgt_not_eq. unfold Rdiv. repeat apply Rmult_lt_0_compat; lra.
Qed.
