(** C69: time_series.savitzky_golay.
    Specification: polynomials, squared misfit over one window, best fitting polynomials. *)
From Coq Require Import Reals Lra ZifyBool ZifyNat.
From Coquelicot Require Import Coquelicot.
From Verif Require Import Base DestripeModel DestripeProofs LinAlg RegressModel RegressProofs TsModel.
Close Scope Z_scope.
Open Scope R_scope.
Ltac Zify.zify_post_hook ::= Z.to_euclidean_division_equations.

Definition val (l : list R) (i : nat) : R := nth i l 0.
(** polynomial c 0 + c 1 s + .. + c order s^order *)
Definition poly (order : nat) (c : nat -> R) (s : R) : R := rsum (order + 1) (fun j => c j * s ^ j).
(** squared misfit of the curve f to the epochs k .. k+2h *)
Definition misfit (t y : list R) (h k : nat) (f : R -> R) : R := rsum (2 * h + 1) (fun i => (val y (k + i) - f (val t (k + i)%nat)) ^ 2).
Definition best (t y : list R) (h k order : nat) (c : nat -> R) : Prop :=
  forall c', misfit t y h k (poly order c) <= misfit t y h k (poly order c').
(** window length 2h+1: the given one, or the smallest odd number that is at least order+2 *)
Definition half_window (WINDOW : option Z) (order : nat) (h : nat) : Prop :=
  match WINDOW with
  | Some w => (w = 2 * Z.of_nat h + 1)%Z /\ (order + 2 <= 2 * h + 1)%nat
  | None => (order + 2 <= 2 * h + 1 <= order + 3)%nat
  end.

(** derivatives of polynomials *)
Lemma is_derive_rsum p z s : is_derive (fun s => rsum p (fun j => z j * s ^ j)) s (rsum p (fun j => z j * (INR j * s ^ (pred j)))).
Proof.
  induction p; cbn [rsum]; [apply (is_derive_const (V := R_NormedModule))|].
  apply (is_derive_plus (V := R_NormedModule)); [exact IHp|].
  auto_derive; [auto|]. ring.
Qed.
Lemma derive_peval p z s : (forall j, (p <= j)%nat -> z j = 0) -> Derive (peval p z) s = peval p (fun j => INR (S j) * z (S j)) s.
Proof.
  intros Hz. apply is_derive_unique. unfold peval. pose proof (is_derive_rsum p z s) as D.
  replace (rsum p (fun j => INR (S j) * z (S j) * s ^ j)) with (rsum p (fun j => z j * (INR j * s ^ pred j))); [exact D|].
  destruct p; [reflexivity|]. rewrite rsum_head. change (INR 0) with 0. rewrite Rmult_0_l, Rmult_0_r, Rplus_0_l.
  assert (L : forall f, rsum (S p) f = rsum p f + f p) by reflexivity. rewrite (L (fun j => INR (S j) * z (S j) * s ^ j)).
  rewrite (Hz (S p)) by lia. rewrite Rmult_0_r, Rmult_0_l, Rplus_0_r. apply rsum_ext. intros j _. cbn [Nat.pred]. ring.
Qed.
Lemma derive_n_peval p m : forall z s, (forall j, (p <= j)%nat -> z j = 0) ->
  Derive_n (peval p z) m s = peval p (fun j => INR (fact (m + j)) / INR (fact j) * z (m + j)%nat) s.
Proof.
  induction m as [|m IH]; intros z s Hz.
  - cbn [Derive_n]. apply peval_ext. intros j _. cbn [Nat.add]. field. apply INR_fact_neq_0.
  - cbn [Derive_n]. rewrite (Derive_ext _ _ s (fun u => IH z u Hz)). rewrite derive_peval.
    + apply peval_ext. intros j _. replace (m + S j)%nat with (S m + j)%nat by lia. rewrite (fact_simpl j), mult_INR.
      field. split; [apply INR_fact_neq_0|apply not_0_INR; lia].
    + intros j Lj. rewrite Hz by lia. ring.
Qed.
Lemma derive_n_poly0 order c m : (m <= order)%nat -> Derive_n (poly order c) m 0 = INR (fact m) * c m.
Proof.
  intros L. set (z := fun j => if (j <? order + 1)%nat then c j else 0).
  rewrite (Derive_n_ext _ (peval (order + 1) z)).
  2:{ intros s. unfold poly, peval. apply rsum_ext. intros j Lj. unfold z. destruct (Nat.ltb_spec j (order + 1)); [reflexivity|lia]. }
  rewrite derive_n_peval.
  - unfold peval. replace (order + 1)%nat with (S order) by lia. rewrite rsum_head.
    rewrite (rsum_ext order _ (fun _ => 0)) by (intros; cbn [pow]; ring). rewrite rsum_zero. cbn [pow fact INR].
    replace (m + 0)%nat with m by lia. unfold z. destruct (Nat.ltb_spec m (order + 1)); [|lia]. field.
  - intros j Lj. unfold z. destruct (Nat.ltb_spec j (order + 1)); [lia|reflexivity].
Qed.
Lemma poly_shift order c a : exists c', forall s, poly order c (s + a) = poly order c' s.
Proof. destruct (peval_shift (order + 1) c a) as [y [Y _]]. exists y. exact Y. Qed.

(** design of one window *)
Definition dm (t : list R) (h n : nat) (o k : nat) : R := (at_ t (n + k) - at_ t (n + h)) ^ o.
Lemma dm_indep t h n order : NoDup t -> (n + 2 * h < length t)%nat -> (order < 2 * h + 1)%nat -> independent (order + 1) (2 * h + 1) (dm t h n).
Proof.
  intros ND L LO x Hx j Lj.
  apply (powers_independent (order + 1) x (map (fun k => at_ t (n + k) - at_ t (n + h)) (seq 0 (2 * h + 1)))); auto.
  - 
    assert (forall l, (forall k, In k l -> (k < 2 * h + 1)%nat) -> NoDup l -> NoDup (map (fun k => at_ t (n + k) - at_ t (n + h)) l)).
    { induction l as [|a l IH]; intros HL NDl; [constructor|]. cbn [map]. inversion NDl; subst. constructor.
      - rewrite in_map_iff. intros [b [E Hb]]. assert (at_ t (n + b) = at_ t (n + a)) by lra.
        assert (n + b = n + a)%nat. { apply (proj1 (NoDup_nth t 0) ND); [pose proof (HL b ltac:(right; auto)); lia|pose proof (HL a ltac:(left; auto)); lia|exact H]. }
        assert (b = a) by lia. subst. contradiction.
      - apply IH; auto. intros; apply HL; right; auto. }
    apply H; [intros k Hk; apply in_seq in Hk; lia|apply seq_NoDup].
  - rewrite map_length, seq_length. lia.
  - intros a Ha. apply in_map_iff in Ha. destruct Ha as [k [E Hk]]. apply in_seq in Hk. subst a. rewrite <- (Hx k) by lia. reflexivity.
Qed.
(** sum over unit vectors *)
Lemma lsq_units p n A d j : independent p n A -> (j < p)%nat -> rsum n (fun i => lsq p n A (delta i) j * d i) = lsq p n A d j.
Proof.
  intros I L.
  assert (G : forall m, (m <= n)%nat -> rsum m (fun i => lsq p n A (delta i) j * d i) = lsq p n A (fun k => rsum m (fun i => delta i k * d i)) j).
  { induction m as [|m IH]; intros Lm.
    - cbn [rsum]. symmetry. apply (lsq_exact p n A (fun _ => 0) (fun _ => 0)); auto. intros i _. unfold comb.
      rewrite (rsum_ext p _ (fun _ => 0)) by (intros; ring). rewrite rsum_zero. reflexivity.
    - cbn [rsum]. rewrite IH by lia.
      rewrite (lsq_ext p n A A (fun k => rsum m (fun i => delta i k * d i) + delta m k * d m) (fun k => 1 * rsum m (fun i => delta i k * d i) + d m * delta m k)) by (auto; intros; ring).
      rewrite lsq_linear by auto. ring. }
  rewrite G by lia. apply lsq_ext; auto. intros k Lk. apply (rsum_delta n k d Lk).
Qed.
Lemma rev_tab_at n f i : (i < n)%nat -> at_ (rev (tab n f)) i = f (n - 1 - i)%nat.
Proof. intros L. unfold at_. rewrite rev_nth by (rewrite tab_len; auto). rewrite tab_len. change (nth ?a ?b 0) with (at_ b a). rewrite tab_at by lia. f_equal. lia. Qed.
Lemma rsum_rev n f : rsum n (fun j => f (n - 1 - j)%nat) = rsum n f.
Proof.
  revert f. induction n as [|n IH]; intros f; [reflexivity|]. rewrite rsum_head. change (rsum (S n) f) with (rsum n f + f n).
  rewrite <- (IH f). rewrite Rplus_comm. f_equal.
  - apply rsum_ext. intros j L. f_equal. lia.
  - f_equal. lia.
Qed.
Definition wgt (t : list R) (ORDER DERIV h n : nat) (RATE : R) (i : nat) : R :=
  lsq (ORDER + 1) (2 * h + 1) (dm t h n) (delta i) DERIV * RATE ^ DERIV * INR (fact DERIV).
Lemma sg_point_ok t y ORDER DERIV h n RATE err :
  sg_point t y ORDER DERIV h n RATE err =
  (rsum (2 * h + 1) (fun i => wgt t ORDER DERIV h n RATE i * at_ y (n + i)),
   Rabs err * sqrt (rsum (2 * h + 1) (fun i => wgt t ORDER DERIV h n RATE i ^ 2))).
Proof.
  unfold sg_point. set (w := wgt t ORDER DERIV h n RATE).
  assert (SW : sg_weights t ORDER DERIV h n RATE = tab (2 * h + 1) w) by reflexivity. rewrite SW.
  assert (FL : forall (A B : list R) l, length A = h -> forall i, (i < length l)%nat -> at_ (A ++ l ++ B) (h + i) = at_ l i).
  { intros A B l LA i Li. unfold at_. rewrite app_nth2 by lia. rewrite LA. replace (h + i - h)%nat with i by lia. rewrite app_nth1 by lia. reflexivity. }
  f_equal.
  - unfold convolve_valid. rewrite rev_length, tab_len.
    rewrite <- (rsum_rev (2 * h + 1) (fun i => w i * at_ y (n + i))). apply rsum_ext. intros j Lj. rewrite rev_tab_at by lia. f_equal.
    replace (h + (2 * h + 1 - 1) - j)%nat with (h + (2 * h + 1 - 1 - j))%nat by lia. rewrite FL.
    + rewrite tab_at by lia. reflexivity.
    + rewrite map_length, rev_length. unfold slice. rewrite skipn_length, firstn_length, tab_len. lia.
    + rewrite tab_len. lia.
  - destruct (Req_EM_T err 0) as [->|NE]. { rewrite Rabs_R0. ring. }
    unfold convolve_valid. rewrite map_length, rev_length, tab_len.
    rewrite (rsum_ext _ _ (fun j => err ^ 2 * w (2 * h + 1 - 1 - j)%nat ^ 2)).
    + rewrite rsum_scal, (rsum_rev (2 * h + 1) (fun j => w j ^ 2)). rewrite sqrt_mult_alt by apply pow2_ge_0.
      rewrite <- (Rsqr_pow2 err), sqrt_Rsqr_abs. reflexivity.
    + intros j Lj. rewrite at_map by (rewrite rev_length, tab_len; auto). rewrite rev_tab_at, tab_at by lia. ring.
Qed.

Lemma sg_window_ok W order w : sg_window W order = Ok w <-> (exists h, half_window W order h /\ w = (2 * Z.of_nat h + 1)%Z).
Proof.
  unfold sg_window, half_window. destruct W as [v|].
  - split.
    + destruct (negb (v mod 2 =? 1) || (v <? 1))%Z eqn:E1; [discriminate|]. destruct (v <? Z.of_nat order + 2)%Z eqn:E2; [discriminate|].
      intros H. assert (w = v) by congruence. subst w. exists (Z.to_nat ((v - 1) / 2)). lia.
    + intros [h [[H1 H2] H3]]. destruct (negb (v mod 2 =? 1) || (v <? 1))%Z eqn:E1; [lia|]. destruct (v <? Z.of_nat order + 2)%Z eqn:E2; [lia|]. f_equal; lia.
  - set (v := (Z.of_nat order + -1 * (Z.of_nat order mod 2) + 3)%Z). split.
    + destruct (negb (v mod 2 =? 1) || (v <? 1))%Z eqn:E1; [discriminate|]. destruct (v <? Z.of_nat order + 2)%Z eqn:E2; [discriminate|].
      intros H. assert (w = v) by congruence. subst w. exists (Z.to_nat ((v - 1) / 2)). unfold v in *. lia.
    + intros [h [H2 H3]]. destruct (negb (v mod 2 =? 1) || (v <? 1))%Z eqn:E1; [unfold v in *; lia|]. destruct (v <? Z.of_nat order + 2)%Z eqn:E2; [unfold v in *; lia|]. f_equal; unfold v; lia.
Qed.
Lemma sg_window_err W order : (forall w, sg_window W order <> Ok w) -> sg_window W order = Err ValueError.
Proof.
  unfold sg_window. intros H. destruct W as [v|]; repeat match goal with |- (if ?b then _ else _) = _ => destruct b; try reflexivity end; exfalso; eapply H; reflexivity.
Qed.

(** ** theorems *)
(** when does a call return *)
Theorem C69_returns : forall t y W order deriv rate err,
  (forall h, half_window W order h -> (2 <= length t)%nat -> length y = length t -> (2 * h <= length t)%nat -> (deriv <= order)%nat ->
     exists out time, savitzky_golay t y W order deriv rate err = Ok (out, time)) /\
  ((forall h, ~ half_window W order h) -> savitzky_golay t y W order deriv rate err = Err ValueError) /\
  (forall h, half_window W order h -> (length t <> 1)%nat -> (length t < 2 * h)%nat -> savitzky_golay t y W order deriv rate err = Err ValueError) /\
  (forall h, half_window W order h -> (length t <> 1)%nat -> (2 * h < length t)%nat -> (order < deriv)%nat -> savitzky_golay t y W order deriv rate err = Err IndexError).
Proof.
  intros t y W order deriv rate err. unfold savitzky_golay.
  assert (HW : forall h, half_window W order h -> sg_window W order = Ok (2 * Z.of_nat h + 1)%Z) by (intros h Hh; apply sg_window_ok; eauto).
  assert (HH : forall h, Z.to_nat ((2 * Z.of_nat h + 1 - 1) / 2) = h) by (intros; lia).
  split; [|split; [|split]].
  - intros h Hh L2 Ly LH LD. rewrite (HW h Hh). cbn [bind]. rewrite HH.
    destruct (Nat.eqb_spec (length t) 1); [lia|]. destruct (Nat.ltb_spec (length t) (2 * h)); [lia|].
    destruct (Nat.ltb_spec (length y) (length t)); [lia|]. destruct (Nat.ltb_spec order deriv); [lia|]. rewrite andb_false_r. eexists _, _. reflexivity.
  - intros H. rewrite sg_window_err; [reflexivity|]. intros w E. apply sg_window_ok in E. destruct E as [h [Hh _]]. exact (H h Hh).
  - intros h Hh L1 L. rewrite (HW h Hh). cbn [bind]. rewrite HH.
    destruct (Nat.eqb_spec (length t) 1); [lia|]. destruct (Nat.ltb_spec (length t) (2 * h)); [reflexivity|lia].
  - intros h Hh L1 L LD. rewrite (HW h Hh). cbn [bind]. rewrite HH.
    destruct (Nat.eqb_spec (length t) 1); [lia|]. destruct (Nat.ltb_spec (length t) (2 * h)); [lia|].
    destruct (Nat.eqb_spec (length t - 2 * h) 0); [lia|]. destruct (Nat.ltb_spec order deriv); [|lia]. rewrite orb_true_r. reflexivity.
Qed.
Lemma sg_facts t y W order deriv rate err out time : savitzky_golay t y W order deriv rate err = Ok (out, time) ->
  exists h, half_window W order h /\ (2 * h <= length t)%nat /\ (length t - 2 * h = 0 \/ length t <= length y /\ deriv <= order)%nat /\
   out = map (fun i => sg_point t y order deriv h i rate err) (seq 0 (length t - 2 * h)) /\ time = slice t h (length t - h).
Proof.
  unfold savitzky_golay. destruct (sg_window W order) as [w|] eqn:E; cbn [bind]; [|discriminate].
  apply sg_window_ok in E. destruct E as [h [Hh ->]]. assert (HH : Z.to_nat ((2 * Z.of_nat h + 1 - 1) / 2) = h) by lia. rewrite HH.
  destruct (Nat.eqb_spec (length t) 1); [discriminate|]. destruct (Nat.ltb_spec (length t) (2 * h)); [discriminate|].
  destruct (negb (length t - 2 * h =? 0) && ((length y <? length t) || (order <? deriv)))%nat eqn:C; [discriminate|].
  intros Q. assert (X : forall (a b : list (R * R) * list R), Ok a = Ok b -> b = a) by congruence. apply X in Q.
  exists h. split; [exact Hh|]. split; [lia|]. split; [lia|]. split; congruence.
Qed.
Lemma nth_skipn' {A} (l : list A) a i d : nth i (skipn a l) d = nth (a + i) l d.
Proof. revert l; induction a; intros [|x l]; cbn; auto. destruct i; reflexivity. Qed.
Lemma nth_firstn' {A} (l : list A) b i d : (i < b)%nat -> nth i (firstn b l) d = nth i l d.
Proof. revert b i; induction l as [|x l IH]; intros [|b] [|i] L; cbn; auto; try lia. apply IH; lia. Qed.
Lemma sg_nth {B} (f : nat -> B) n k d : (k < n)%nat -> nth k (map f (seq 0 n)) d = f k.
Proof. intros L. rewrite (nth_indep _ d (f 0%nat)) by (rewrite map_length, seq_length; auto). rewrite map_nth, seq_nth by auto. reflexivity. Qed.

(** value k is RATE^DERIV times the DERIV-th derivative, at the window centre, of the best fitting polynomial of degree ORDER *)
Theorem C69_best_fit : forall t y W order deriv rate err out time,
  savitzky_golay t y W order deriv rate err = Ok (out, time) -> NoDup t ->
  exists h, half_window W order h /\ length out = (length t - 2 * h)%nat /\ length time = length out /\
  forall k, (k < length out)%nat -> val time k = val t (k + h) /\ (exists c, best t y h k order c) /\
    forall c, best t y h k order c -> fst (nth k out (0, 0)) = rate ^ deriv * Derive_n (poly order c) deriv (val time k).
Proof.
  intros t y W order deriv rate err out time E ND. destruct (sg_facts _ _ _ _ _ _ _ _ _ E) as (h & Hh & LH & LL & -> & ->).
  assert (OW : (order < 2 * h + 1)%nat) by (unfold half_window in Hh; destruct W; lia).
  exists h. split; [exact Hh|]. rewrite map_length, seq_length. split; [reflexivity|]. split; [unfold slice; rewrite skipn_length, firstn_length; lia|].
  intros k Lk. assert (TK : val (slice t h (length t - h)) k = val t (k + h)).
  { unfold val, slice. rewrite nth_skipn', nth_firstn' by lia. f_equal. lia. }
  split; [exact TK|]. rewrite TK. rewrite sg_nth by auto. rewrite sg_point_ok. cbn [fst].
  set (n := (2 * h + 1)%nat). set (p := (order + 1)%nat). set (a := val t (k + h)).
  pose proof (dm_indep t h k order ND ltac:(lia) OW) as I. fold n p in I.
  set (d := fun i => at_ y (k + i)). set (b := lsq p n (dm t h k) d).
  (* misfit of a polynomial in terms of centred coefficients *)
  assert (MF : forall c c', (forall s, poly order c (s + a) = poly order c' s) ->
     misfit t y h k (poly order c) = dot n (fun i => d i - comb p (dm t h k) c' i) (fun i => d i - comb p (dm t h k) c' i)).
  { intros c c' Hc. unfold misfit, dot. fold n. apply rsum_ext. intros i Li.
    replace (val t (k + i)) with (val t (k + i) - a + a) by ring. rewrite Hc.
    change (poly order c' (val t (k + i) - a)) with (comb p (dm t h k) c' i). unfold d, at_, val. ring. }
  assert (UN : forall c', exists c, forall s, poly order c (s + a) = poly order c' s).
  { intros c'. destruct (poly_shift order c' (- a)) as [c Hc]. exists c. intros s. rewrite <- Hc. f_equal. ring. }
  split.
  - destruct (UN b) as [c Hc]. exists c. intros c'. destruct (poly_shift order c' a) as [c'' Hc']. rewrite (MF c b Hc), (MF c' c'' Hc'). apply lsq_min.
  - intros c Hc. destruct (poly_shift order c a) as [c' Hc'].
    assert (EQ : forall j, (j < p)%nat -> c' j = b j).
    { destruct (UN b) as [cb Hcb]. pose proof (Hc cb) as M. rewrite (MF c c' Hc'), (MF cb b Hcb) in M.
      rewrite (normal_min p n (dm t h k) d b ltac:(intros; apply lsq_normal; auto) c') in M.
      pose proof (dot_self_nonneg n (fun i => comb p (dm t h k) b i - comb p (dm t h k) c' i)) as NN.
      assert (Z : dot n (fun i => comb p (dm t h k) b i - comb p (dm t h k) c' i) (fun i => comb p (dm t h k) b i - comb p (dm t h k) c' i) = 0) by lra.
      intros j Lj. assert (b j - c' j = 0); [|lra]. apply (I (fun j => b j - c' j)); auto. intros i Li. rewrite comb_sub.
      pose proof (dot_self_zero n _ Z i Li) as Q. cbv beta in Q. lra. }
    assert (LD : (deriv <= order)%nat) by lia.
    rewrite (rsum_ext n _ (fun i => (rate ^ deriv * INR (fact deriv)) * (lsq p n (dm t h k) (delta i) deriv * d i))).
    2:{ intros i Li. unfold wgt. fold n p. unfold d. ring. }
    rewrite rsum_scal, lsq_units by (auto; unfold p; lia). fold b. rewrite <- EQ by (unfold p; lia).
    replace a with (0 + a) by ring. rewrite <- Derive_n_comp_trans.
    rewrite (Derive_n_ext (fun x => poly order c (x + a)) (poly order c')) by exact Hc'. rewrite derive_n_poly0 by auto. ring.
Qed.
(** data on a polynomial of degree at most ORDER: its exact derivative at the output epochs *)
Theorem C69_exact : forall t y W order deriv rate err out time c,
  savitzky_golay t y W order deriv rate err = Ok (out, time) -> NoDup t ->
  (forall i, (i < length t)%nat -> val y i = poly order c (val t i)) ->
  forall k, (k < length out)%nat -> fst (nth k out (0, 0)) = rate ^ deriv * Derive_n (poly order c) deriv (val time k).
Proof.
  intros t y W order deriv rate err out time c E ND Hy k Lk.
  destruct (C69_best_fit _ _ _ _ _ _ _ _ _ E ND) as (h & Hh & LO & LT & B). destruct (B k Lk) as (_ & _ & B').
  apply B'. intros c'. unfold misfit at 1. rewrite (rsum_ext _ _ (fun _ => 0)).
  - rewrite rsum_zero. unfold misfit. apply rsum_nonneg. intros i _. apply pow2_ge_0.
  - intros i Li. rewrite Hy by lia. ring.
Qed.
(** each value is a weighted sum of the data of its window with weights that depend only on the times (the padding
    of the signal has no influence); the error is |DATA_ERR| times the root sum of squares of these weights *)
Theorem C69_weights_errors : forall t W order deriv rate, exists w : nat -> nat -> R, forall y err out time,
  savitzky_golay t y W order deriv rate err = Ok (out, time) ->
  forall k h, half_window W order h -> (k < length out)%nat ->
   nth k out (0, 0) = (rsum (2 * h + 1) (fun i => w k i * val y (k + i)), Rabs err * sqrt (rsum (2 * h + 1) (fun i => w k i ^ 2))).
Proof.
  intros t W order deriv rate. destruct (sg_window W order) as [wd|] eqn:EW.
  - apply sg_window_ok in EW. destruct EW as [h [Hh ->]]. exists (fun k => wgt t order deriv h k rate).
    intros y err out time E k h' Hh' Lk. destruct (sg_facts _ _ _ _ _ _ _ _ _ E) as (h2 & Hh2 & _ & _ & -> & _).
    assert (h' = h) by (unfold half_window in *; destruct W; lia). assert (h2 = h) by (unfold half_window in *; destruct W; lia). subst.
    rewrite map_length, seq_length in Lk. rewrite sg_nth by auto. rewrite sg_point_ok. reflexivity.
  - exists (fun _ _ => 0). intros y err out time E. exfalso. unfold savitzky_golay in E. rewrite EW in E. discriminate.
Qed.
Example C69_nonvacuous : exists out time, savitzky_golay [0; 1; 3; 4; 6] [0; 1; 9; 16; 36] None 2 1 1 0 = Ok (out, time) /\
  NoDup [0; 1; 3; 4; 6] /\ length out = 1%nat /\ half_window None 2 2 /\
  (forall i, (i < 5)%nat -> val [0; 1; 9; 16; 36] i = poly 2 (fun j => if (j =? 2)%nat then 1 else 0) (val [0; 1; 3; 4; 6] i)).
Proof.
  destruct (C69_returns [0; 1; 3; 4; 6] [0; 1; 9; 16; 36] None 2 1 1 0) as [A _].
  destruct (A 2%nat ltac:(cbn; lia) ltac:(cbn; lia) ltac:(reflexivity) ltac:(cbn; lia) ltac:(lia)) as (out & time & E).
  exists out, time. split; [exact E|].
  assert (ND : NoDup [0; 1; 3; 4; 6]). { repeat constructor; cbn; intros H; repeat destruct H as [H|H]; lra. }
  split; [exact ND|]. split.
  - destruct (C69_best_fit _ _ _ _ _ _ _ _ _ E ND) as (h & Hh & L & _). cbn in Hh. assert (h = 2%nat) by lia. subst. exact L.
  - split; [cbn; lia|]. intros i Li. do 5 (destruct i as [|i]; [cbn; ring|]). lia.
Qed.
