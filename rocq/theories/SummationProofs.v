(** Proofs for harmonic_summation.py and clenshaw_summation.py. *)
From Coq Require Import Reals Lra Lia String ZifyBool ZifyNat.
From Verif Require Import Base UnitsModel GaussModel Arr LegendreSpec LegendreSpec2 LegendreModel LegendreProofs LegendreProofs2 SummationModel.
Close Scope Z_scope.
Open Scope R_scope.

(** ** finite sums *)
Lemma sumn_ext n f g : (forall i, (i < n)%nat -> f i = g i) -> sumn n f = sumn n g.
Proof. induction n as [|n IH]; intros H; [reflexivity|]. cbn [sumn]. rewrite IH, H by (intros; try apply H; lia). reflexivity. Qed.
Lemma sumn_plus n f g : sumn n (fun i => f i + g i) = sumn n f + sumn n g.
Proof. induction n as [|n IH]; cbn [sumn]; [ring|rewrite IH; ring]. Qed.
Lemma sumn_scal n k f : sumn n (fun i => k * f i) = k * sumn n f.
Proof. induction n as [|n IH]; cbn [sumn]; [ring|rewrite IH; ring]. Qed.
Lemma sumn_zero n : sumn n (fun _ => 0) = 0.
Proof. induction n as [|n IH]; cbn [sumn]; [reflexivity|rewrite IH; ring]. Qed.
Lemma sumn_S n f : sumn (S n) f = sumn n f + f n. Proof. reflexivity. Qed.
Lemma sumn_swap n m f : sumn n (fun i => sumn m (fun j => f i j)) = sumn m (fun j => sumn n (fun i => f i j)).
Proof.
  induction n as [|n IH]; cbn [sumn]; [now rewrite sumn_zero|]. rewrite IH, <- sumn_plus. reflexivity.
Qed.
Lemma sumn_single n k v : (k < n)%nat -> sumn n (fun i => if (i =? k)%nat then v else 0) = v.
Proof.
  intros H. induction n as [|n IH]; [lia|]. rewrite sumn_S. destruct (Nat.eq_dec k n) as [->|N].
  - rewrite Nat.eqb_refl, (sumn_ext _ _ (fun _ => 0)), sumn_zero; [ring|]. intros i Hi. destruct (Nat.eqb_spec i n); [lia|reflexivity].
  - rewrite IH by lia. destruct (Nat.eqb_spec n k); [lia|ring].
Qed.
(** sum of the terms from index l on *)
Definition tail (n : nat) (w : nat -> R) (l : nat) : R := sumn n (fun j => if (l <=? j)%nat then w j else 0).
Lemma tail_S n w l : (l < n)%nat -> tail n w l = w l + tail n w (S l).
Proof.
  intros H. unfold tail. rewrite <- (sumn_single n l (w l) H), <- sumn_plus. apply sumn_ext. intros i Hi.
  destruct (Nat.eqb_spec i l) as [->|N].
  - rewrite Nat.leb_refl. replace (S l <=? l)%nat with false by lia. ring.
  - replace (S l <=? i)%nat with (l <=? i)%nat by lia. ring.
Qed.
Lemma tail_end n w l : (n <= l)%nat -> tail n w l = 0.
Proof. intros H. unfold tail. rewrite (sumn_ext _ _ (fun _ => 0)); [apply sumn_zero|]. intros i Hi. replace (l <=? i)%nat with false by lia. reflexivity. Qed.
Lemma tail_0 n w : tail n w 0 = sumn n w.
Proof. unfold tail. apply sumn_ext. intros i Hi. reflexivity. Qed.

(** ** loops that count down *)
Lemma fold_rev_inv {A} (I : nat -> A -> Prop) (f : A -> nat -> A) n : forall a st,
  I (a + n)%nat st -> (forall l s, (a <= l < a + n)%nat -> I (S l) s -> I l (f s l)) -> I a (fold_left f (rev (seq a n)) st).
Proof.
  induction n as [|n IH]; intros a st H0 HS; [now rewrite Nat.add_0_r in H0|].
  replace (rev (seq a (S n))) with ((a + n)%nat :: rev (seq a n)) by (rewrite seq_S, rev_app_distr; reflexivity).
  cbn [fold_left]. apply IH; [|intros l s Hl; apply HS; lia].
  apply HS; [lia|]. replace (S (a + n)) with (a + S n)%nat by lia. exact H0.
Qed.

(** Clenshaw's backward recursion for a three-term recurrence *)
Lemma clen_back (N a b g : nat -> R) lmax m : (m < lmax)%nat ->
  (forall l, (m + 2 <= l <= lmax)%nat -> N l = a l * N (l - 1)%nat - b l * N (l - 2)%nat) -> N (S m) = a (S m) * N m ->
  let F := fun '((y1, y2) : R * R) l => (a (S l) * y1 - b (S (S l)) * y2 + g l, y1) in
  fst (fold_left F (rev (seq m (lmax - 1 - m))) (a lmax * g lmax + g (lmax - 1)%nat, g lmax)) * N m =
  tail (lmax + 1) (fun l => g l * N l) m.
Proof.
  intros Hm R1 R2 F. set (st := (_, _)).
  pose proof (fold_rev_inv (fun l (s : R * R) => tail (lmax + 1) (fun l => g l * N l) l =
     fst s * N l - (if (l =? m)%nat then 0 else b (S l) * snd s * N (l - 1)%nat)) F (lmax - 1 - m) m st) as I.
  cbv beta in I. rewrite I; clear I.
  - rewrite Nat.eqb_refl. ring.
  - replace (m + (lmax - 1 - m))%nat with (lmax - 1)%nat by lia. unfold st. cbn [fst snd].
    rewrite tail_S by lia. replace (S (lmax - 1)) with lmax by lia. rewrite tail_S, tail_end by lia.
    destruct (Nat.eqb_spec (lmax - 1) m) as [E|E].
    + replace lmax with (S m) by lia. replace (S m - 1)%nat with m by lia. rewrite R2. ring.
    + rewrite (R1 lmax) by lia. replace (lmax - 1 - 1)%nat with (lmax - 2)%nat by lia. ring.
  - intros l [y1 y2] Hl IH. cbn [fst snd] in *. unfold F. cbn [fst snd]. rewrite tail_S by lia. rewrite IH.
    replace (S l =? m)%nat with false by lia. replace (S l - 1)%nat with l by lia.
    destruct (Nat.eqb_spec l m) as [->|Nm].
    + rewrite R2. ring.
    + rewrite (R1 (S l)) by lia. replace (S l - 1)%nat with l by lia. replace (S l - 2)%nat with (l - 1)%nat by lia. ring.
Qed.

Lemma fold4 (t mm : R) (f : nat -> R) (gc gs : nat -> R) (a b : nat -> R) ls : forall c1 c2 s1 s2,
  fold_left (fun '(c1, c2, s1, s2) l => (a l * c1 - b l * c2 + gc l, c1, a l * s1 - b l * s2 + gs l, s1)) ls (c1, c2, s1, s2) =
  (let '(c1, c2) := fold_left (fun '((c1, c2) : R * R) l => (a l * c1 - b l * c2 + gc l, c1)) ls (c1, c2) in
   let '(s1, s2) := fold_left (fun '((s1, s2) : R * R) l => (a l * s1 - b l * s2 + gs l, s1)) ls (s1, s2) in (c1, c2, s1, s2)).
Proof. induction ls as [|l ls IH]; intros; [reflexivity|]. cbn [fold_left]. apply IH. Qed.
Lemma fold_ext {A} (f g : A -> nat -> A) ls : (forall s l, In l ls -> f s l = g s l) -> forall s, fold_left f ls s = fold_left g ls s.
Proof.
  induction ls as [|l ls IH]; intros H s; [reflexivity|]. cbn [fold_left]. rewrite H by (now left). apply IH. intros; apply H; now right.
Qed.

Lemma clen_coef_a l m : sqrt ((2 * INR l + 1) * (2 * INR l + 3) / ((INR l + 1 - INR m) * (INR l + 1 + INR m))) = aLM (INR (S l)) (INR m).
Proof. unfold aLM. rewrite S_INR. f_equal. f_equal. ring. Qed.
Lemma clen_coef_b l m : sqrt ((2 * INR l + 5) * (INR l + INR m + 1) * (INR l - INR m + 1) / ((INR l + 2 - INR m) * (INR l + 2 + INR m) * (2 * INR l + 1))) = bLM (INR (S (S l))) (INR m).
Proof. unfold bLM. rewrite !S_INR. replace (INR l + 1 + 1) with (INR l + 2) by ring. f_equal. unfold Rdiv. f_equal; [ring|f_equal; ring]. Qed.

Lemma NU_rec_hyps t u m lmax : (forall l, (m + 2 <= l <= lmax)%nat ->
   NU l m t u = aLM (INR l) (INR m) * t * NU (l - 1) m t u - bLM (INR l) (INR m) * NU (l - 2) m t u) /\
   NU (S m) m t u = aLM (INR (S m)) (INR m) * t * NU m m t u.
Proof.
  split; [intros l Hl; apply NU_rec; lia|]. rewrite NU_next. replace (aLM (INR (S m)) (INR m)) with (sqrt (2 * INR m + 3)); [ring|].
  unfold aLM. f_equal. rewrite S_INR. pose proof (pos_INR m). field. lra.
Qed.

Lemma sum_tail_NU t u g m lmax : (m <= lmax)%nat -> tail (lmax + 1) (fun l => g l * NU l m t u) m = sumn (lmax + 1) (fun l => g l * NU l m t u).
Proof.
  intros H. unfold tail. apply sumn_ext. intros i Hi. destruct (Nat.leb_spec m i); [reflexivity|]. rewrite NU_high by lia. ring.
Qed.

(** one branch of clenshaw_s_m as a pair recursion *)
Lemma clen_pair t u f c m lmax SC : (m + 1 < lmax)%nat -> SC <> 0 ->
  fst (fold_left (fun '((y1, y2) : R * R) l => (aLM (INR (S l)) (INR m) * t * y1 - bLM (INR (S (S l))) (INR m) * y2 + f l * (SC * c l m), y1))
       (rev (seq m (lmax - 1 - m))) (aLM (INR lmax) (INR m) * t * (f lmax * (SC * c lmax m)) + f (lmax - 1)%nat * (SC * c (lmax - 1)%nat m), f lmax * (SC * c lmax m))) / SC
  * NU m m t u = sumn (lmax + 1) (fun l => f l * c l m * NU l m t u).
Proof.
  intros Hm HS. destruct (NU_rec_hyps t u m lmax) as [R1 R2].
  pose proof (clen_back (fun l => NU l m t u) (fun l => aLM (INR l) (INR m) * t) (fun l => bLM (INR l) (INR m)) (fun l => f l * (SC * c l m))
     lmax m ltac:(lia) R1 R2) as B.
  cbv zeta beta in B. rewrite sum_tail_NU in B by lia. match type of B with ?A * _ = _ => set (Y := A) in * end.
  assert (E : sumn (lmax + 1) (fun l => f l * (SC * c l m) * NU l m t u) = SC * sumn (lmax + 1) (fun l => f l * c l m * NU l m t u)).
  { rewrite <- sumn_scal. apply sumn_ext. intros; ring. }
  rewrite E in B. match goal with |- ?A / SC * _ = _ => change A with Y end.
  replace (Y / SC * NU m m t u) with (Y * NU m m t u / SC) by (field; exact HS). rewrite B. field. exact HS.
Qed.

Lemma sum_two t u f c m lmax : lmax = S m -> sumn (lmax + 1) (fun l => f l * c l m * NU l m t u) =
  f lmax * c lmax m * NU lmax m t u + f m * c m m * NU m m t u.
Proof.
  intros ->. rewrite <- (sum_tail_NU t u (fun l => f l * c l m) m (S m)) by lia. rewrite tail_S by lia. rewrite tail_S by lia. rewrite tail_end by lia. ring.
Qed.

Lemma clen_cos t u f c s m lmax SC : (m <= lmax)%nat -> SC <> 0 ->
  fst (clenshaw_s_m t f m c s lmax SC) * NU m m t u = sumn (lmax + 1) (fun l => f l * c l m * NU l m t u).
Proof.
  intros Hm HS. unfold clenshaw_s_m. cbv zeta.
  destruct (Nat.eqb_spec m lmax) as [->|N1].
  { cbn [fst]. rewrite <- (sum_tail_NU t u (fun l => f l * c l lmax) lmax lmax) by lia. rewrite tail_S by lia. rewrite tail_end by lia. field. exact HS. }
  destruct (Nat.eqb_spec (S m) lmax) as [E|N2].
  { cbn [fst]. rewrite (sum_two t u f c m lmax) by lia. subst lmax. replace (S m - 1)%nat with m by lia.
    destruct (NU_rec_hyps t u m (S m)) as [_ ->]. unfold aLM. field. exact HS. }
  destruct (Nat.leb_spec 1 m) as [L|L].
  - set (g4 := fun '(c1, c2, s1, s2) l => _).
    rewrite (fold_ext g4 (fun '(c1, c2, s1, s2) l => ((aLM (INR (S l)) (INR m) * t) * c1 - bLM (INR (S (S l))) (INR m) * c2 + f l * (SC * c l m), c1,
       (aLM (INR (S l)) (INR m) * t) * s1 - bLM (INR (S (S l))) (INR m) * s2 + f l * (SC * s l m), s1))).
    2:{ intros [[[y1 y2] z1] z2] l _. unfold g4. now rewrite clen_coef_a, clen_coef_b. }
    rewrite (fold4 t 0 f (fun l => f l * (SC * c l m)) (fun l => f l * (SC * s l m)) (fun l => aLM (INR (S l)) (INR m) * t) (fun l => bLM (INR (S (S l))) (INR m))).
    pose proof (clen_pair t u f c m lmax SC ltac:(lia) HS) as P. unfold aLM at 2 in P.
    match type of P with fst ?X / _ * _ = _ => destruct X as [y1 y2] end.
    match goal with |- context[let '(_, _) := fold_left ?G ?l ?st in (_, _, _, _)] => destruct (fold_left G l st) as [z1 z2] end.
    cbn [fst] in *. exact P.
  - assert (m = 0)%nat by lia. subst m. set (g2 := fun '(c1, c2) l => _).
    rewrite (fold_ext g2 (fun '((c1, c2) : R * R) l => ((aLM (INR (S l)) (INR 0) * t) * c1 - bLM (INR (S (S l))) (INR 0) * c2 + f l * (SC * c l 0%nat), c1))).
    2:{ intros [y1 y2] l _. unfold g2. rewrite <- (clen_coef_a l 0), <- (clen_coef_b l 0). cbn [INR].
        replace (INR l + 1 - 0) with (INR l + 1) by ring. replace (INR l + 1 + 0) with (INR l + 1) by ring. replace (INR l + 0 + 1) with (INR l + 1) by ring.
        replace (INR l - 0 + 1) with (INR l + 1) by ring. replace (INR l + 2 - 0) with (INR l + 2) by ring. replace (INR l + 2 + 0) with (INR l + 2) by ring. reflexivity. }
    pose proof (clen_pair t u f c 0 lmax SC ltac:(lia) HS) as P. unfold aLM at 2 in P. cbn [INR] in P.
    replace ((INR lmax - 0) * (INR lmax + 0)) with (INR lmax * INR lmax) in P by ring. cbn [INR].
    match type of P with fst ?X / _ * _ = _ => destruct X as [y1 y2] end. cbn [fst] in *. exact P.
Qed.
Lemma clen_sin t u f c s m lmax SC : (1 <= m <= lmax)%nat -> SC <> 0 ->
  snd (clenshaw_s_m t f m c s lmax SC) * NU m m t u = sumn (lmax + 1) (fun l => f l * s l m * NU l m t u).
Proof.
  intros Hm HS. rewrite <- (clen_cos t u f s s m lmax SC) by (lia || assumption). f_equal. unfold clenshaw_s_m. cbv zeta.
  destruct (m =? lmax)%nat; [reflexivity|]. destruct (S m =? lmax)%nat; [reflexivity|]. replace (1 <=? m)%nat with true by lia.
  set (a := fun l => sqrt ((2 * INR l + 1) * (2 * INR l + 3) / ((INR l + 1 - INR m) * (INR l + 1 + INR m))) * t).
  set (b := fun l => sqrt ((2 * INR l + 5) * (INR l + INR m + 1) * (INR l - INR m + 1) / ((INR l + 2 - INR m) * (INR l + 2 + INR m) * (2 * INR l + 1)))).
  change (fun '(c1, c2, s1, s2) l => _) with (fun '(c1, c2, s1, s2) l => (a l * c1 - b l * c2 + f l * (SC * c l m), c1, a l * s1 - b l * s2 + f l * (SC * s l m), s1)) at 1.
  rewrite (fold4 t 0 f (fun l => f l * (SC * c l m)) (fun l => f l * (SC * s l m)) a b).
  match goal with |- context[let '(_, _) := fold_left ?G ?l ?st in let '(_, _) := fold_left ?G2 ?l2 ?st2 in (_, _, _, _)] =>
    destruct (fold_left G l st) as [y1 y2]; destruct (fold_left G2 l2 st2) as [z1 z2] eqn:EZ end.
  change (fun '(c1, c2, s1, s2) l => _) with (fun '(c1, c2, s1, s2) l => (a l * c1 - b l * c2 + f l * (SC * s l m), c1, a l * s1 - b l * s2 + f l * (SC * s l m), s1)).
  rewrite (fold4 t 0 f (fun l => f l * (SC * s l m)) (fun l => f l * (SC * s l m)) a b), EZ. reflexivity.
Qed.

Lemma cheb_cos m phi : 2 * cos phi * cos (INR (m + 1) * phi) - cos (INR (m + 2) * phi) = cos (INR m * phi).
Proof.
  rewrite !plus_INR. change (INR 1) with 1. change (INR 2) with 2.
  replace ((INR m + 2) * phi) with ((INR m + 1) * phi + phi) by ring. replace (INR m * phi) with ((INR m + 1) * phi - phi) by ring.
  rewrite cos_plus, cos_minus. ring.
Qed.
Lemma cheb_sin m phi : 2 * cos phi * sin (INR (m + 1) * phi) - sin (INR (m + 2) * phi) = sin (INR m * phi).
Proof.
  rewrite !plus_INR. change (INR 1) with 1. change (INR 2) with 2.
  replace ((INR m + 2) * phi) with ((INR m + 1) * phi + phi) by ring. replace (INR m * phi) with ((INR m + 1) * phi - phi) by ring.
  rewrite sin_plus, sin_minus. ring.
Qed.

Lemma clenshaw_point_ok th phi f c s LMAX SC : (1 <= LMAX)%nat -> SC <> 0 ->
  clenshaw_point th phi f c s LMAX SC =
  sumn (LMAX + 1) (fun m => sumn (LMAX + 1) (fun l => f l * NU l m (cos th) (sin th) * (c l m * cos (INR m * phi) + s l m * sin (INR m * phi)))).
Proof.
  intros HL HS. set (W := fun m => sumn (LMAX + 1) (fun l => f l * NU l m (cos th) (sin th) * (c l m * cos (INR m * phi) + s l m * sin (INR m * phi)))).
  set (t := cos th) in *. set (u := sin th) in *.
  assert (HW : forall m, (1 <= m <= LMAX)%nat ->
    (fst (clenshaw_s_m t f m c s LMAX SC) * cos (INR m * phi) + snd (clenshaw_s_m t f m c s LMAX SC) * sin (INR m * phi)) * NU m m t u = W m).
  { intros m Hm. rewrite Rmult_plus_distr_r.
    replace (fst (clenshaw_s_m t f m c s LMAX SC) * cos (INR m * phi) * NU m m t u) with (cos (INR m * phi) * (fst (clenshaw_s_m t f m c s LMAX SC) * NU m m t u)) by ring.
    replace (snd (clenshaw_s_m t f m c s LMAX SC) * sin (INR m * phi) * NU m m t u) with (sin (INR m * phi) * (snd (clenshaw_s_m t f m c s LMAX SC) * NU m m t u)) by ring.
    rewrite clen_cos, clen_sin by (lia || assumption). rewrite <- !sumn_scal, <- sumn_plus. unfold W. apply sumn_ext. intros; ring. }
  assert (HW0 : fst (clenshaw_s_m t f 0 c s LMAX SC) = W 0%nat).
  { pose proof (clen_cos t u f c s 0 LMAX SC ltac:(lia) HS) as Q. rewrite NU_0_0, Rmult_1_r in Q. rewrite Q. unfold W. apply sumn_ext. intros i _.
    cbn [INR]. replace (0 * phi) with 0 by ring. rewrite cos_0, sin_0. ring. }
  unfold clenshaw_point. cbv zeta. fold t u. set (F := fun '(sm, cphi, sphi) m => _). set (st := (_, _, _)).
  pose proof (fold_rev_inv (fun m (q : R * (nat -> R) * (nat -> R)) => let '(sm, cp, sp) := q in
     sm * NU m m t u = tail (LMAX + 1) W m /\ cp m = cos (INR m * phi) /\ cp (m + 1)%nat = cos (INR (m + 1) * phi) /\
     sp m = sin (INR m * phi) /\ sp (m + 1)%nat = sin (INR (m + 1) * phi)) F (LMAX - 1) 1 st) as I.
  destruct (fold_left F (rev (seq 1 (LMAX - 1))) st) as [[sm cp] sp].
  destruct I as (I & _).
  - replace (1 + (LMAX - 1))%nat with LMAX by lia. unfold st.
    rewrite !st1_same. split; [|repeat split; try reflexivity; rewrite st1_other by lia; apply st1_same]. rewrite HW by lia. rewrite tail_S by lia. rewrite tail_end by lia. ring.
  - intros m [[sm0 cp0] sp0] Hm (A & B & C & D & E). unfold F. rewrite !st1_same. rewrite !st1_other by lia.
    replace (S m) with (m + 1)%nat in * by lia. replace (m + 1 + 1)%nat with (m + 2)%nat in * by lia.
    rewrite B, C, D, E, cheb_cos, cheb_sin. split; [|repeat split].
    rewrite (tail_S _ _ m) by lia. replace (S m) with (m + 1)%nat by lia. rewrite <- A, <- HW by lia.
    replace (m + 1)%nat with (S m) by lia. rewrite NU_sect by lia. ring.
  - rewrite HW0. rewrite <- (NU_1_1 t u). rewrite <- (tail_0 (LMAX + 1) W), (tail_S _ _ 0) by lia. rewrite <- I. ring.
Qed.

(** LMAX = 0: the extra term *)
Lemma clenshaw_point_0 th phi f c s SC : SC <> 0 -> clenshaw_point th phi f c s 0 SC = f 0%nat * c 0%nat 0%nat * (1 + sqrt 3 * sin th).
Proof.
  intros H. unfold clenshaw_point, clenshaw_s_m. cbn -[sqrt]. rewrite Rmult_0_l, cos_0, sin_0. unfold st1. cbn -[sqrt]. field. exact H.
Qed.
