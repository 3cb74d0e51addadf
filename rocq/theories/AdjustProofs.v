(** Lemmas about [adjust_months] (time.py:327-387). *)
From Coq Require Import Sorted.
From Verif Require Import Base TimeModel.
Open Scope Z_scope.

(** value stored at index j by one loop body, as a function of the already
    stored value [prev] at the (wrapped) preceding index and the old value *)
Definition step_value (gm : list Z) (prev old : Z) (j : nat) : Z :=
  let n := length gm in
  let mm1 := nth (wrap_pred n j) gm 0 in
  let mon := nth j gm 0 in
  let mp1 := if (j <? n - 1)%nat then nth (j + 1) gm 0 else mon + 1 in
  let mp2 := if (j <? n - 2)%nat then nth (j + 2) gm 0 else mp1 + 1 in
  if mon =? mm1 + 1 then mon
  else if (mon =? mm1) && negb (mon =? prev) then mon
  else if mon =? mm1 then mon + 1
  else if (mon =? mp1) && ((mon =? mm1 + 2) || (mp2 =? mp1 + 1)) then mon - 1
  else old.

Lemma upd_self {A} (l : list A) j d : upd l j (nth j l d) = l.
Proof. revert j; induction l as [|x l IH]; intros [|j]; cbn; auto. now rewrite IH. Qed.

Lemma adjust_step_value gm m j :
  adjust_step gm m j = upd m j (step_value gm (nth (wrap_pred (length gm) j) m 0) (nth j m 0) j).
Proof.
  unfold adjust_step, step_value.
  repeat match goal with |- context [if ?b then _ else _] => destruct b eqn:? end;
    try reflexivity; symmetry; apply upd_self.
Qed.

Definition partial_run gm k :=
  fold_left (adjust_step gm) (filter (fun j => Nat.eqb (mult gm (nth j gm 0)) 2) (seq 0 k)) (adjust_init gm).

Lemma partial_run_S gm k :
  partial_run gm (S k) =
  if Nat.eqb (mult gm (nth k gm 0)) 2 then adjust_step gm (partial_run gm k) k else partial_run gm k.
Proof.
  unfold partial_run. rewrite seq_S, filter_app, fold_left_app. cbn [filter Nat.add].
  destruct (Nat.eqb _ 2); reflexivity.
Qed.

Lemma partial_run_length gm k : length (partial_run gm k) = length gm.
Proof.
  induction k as [|k IH].
  - unfold partial_run, adjust_init. cbn. now rewrite map_length.
  - rewrite partial_run_S. destruct (Nat.eqb _ 2); [|exact IH].
    rewrite adjust_step_value, upd_length. exact IH.
Qed.

Lemma partial_run_frame gm k i : i <> k -> nth i (partial_run gm (S k)) 0 = nth i (partial_run gm k) 0.
Proof.
  intros H. rewrite partial_run_S. destruct (Nat.eqb _ 2); [|reflexivity].
  rewrite adjust_step_value, upd_nth. destruct (Nat.eqb_spec k i); [congruence|reflexivity].
Qed.

Lemma partial_run_later gm i k : (i < k)%nat -> nth i (partial_run gm k) 0 = nth i (partial_run gm (S i)) 0.
Proof.
  induction k as [|k IH]; intros H; [lia|].
  destruct (Nat.eq_dec i k) as [->|N]; [reflexivity|].
  rewrite partial_run_frame by assumption. apply IH. lia.
Qed.

Lemma partial_run_earlier gm i k : (k <= i)%nat -> nth i (partial_run gm k) 0 = nth i (adjust_init gm) 0.
Proof.
  induction k as [|k IH]; intros H; [reflexivity|].
  rewrite partial_run_frame by lia. apply IH. lia.
Qed.

Lemma adjust_as_run gm : adjust_months gm = partial_run gm (length gm).
Proof. reflexivity. Qed.

Lemma adjust_months_length gm : length (adjust_months gm) = length gm.
Proof. rewrite adjust_as_run. apply partial_run_length. Qed.

Lemma adjust_init_nth gm i : (i < length gm)%nat ->
  nth i (adjust_init gm) 0 = if Nat.eqb (mult gm (nth i gm 0)) 1 then nth i gm 0 else 0.
Proof.
  intros H. unfold adjust_init. set (f := fun x => if Nat.eqb (mult gm x) 1 then x else 0).
  rewrite (nth_indep _ 0 (f 0)) by (rewrite map_length; exact H).
  rewrite map_nth. reflexivity.
Qed.

(** the recursion satisfied by the result *)
Lemma adjust_rec_S gm j : (S j < length gm)%nat ->
  nth (S j) (adjust_months gm) 0 =
  if Nat.eqb (mult gm (nth (S j) gm 0)) 2
  then step_value gm (nth j (adjust_months gm) 0) 0 (S j)
  else if Nat.eqb (mult gm (nth (S j) gm 0)) 1 then nth (S j) gm 0 else 0.
Proof.
  intros H. rewrite adjust_as_run, (partial_run_later gm (S j)) by lia.
  rewrite partial_run_S. destruct (Nat.eqb (mult gm (nth (S j) gm 0)) 2) eqn:E.
  - rewrite adjust_step_value, upd_nth, Nat.eqb_refl, partial_run_length.
    destruct (Nat.ltb_spec (S j) (length gm)); [|lia].
    cbn [wrap_pred]. 
    rewrite (partial_run_later gm j (length gm)) by lia.
    rewrite (partial_run_earlier gm (S j) (S j)) by lia. rewrite adjust_init_nth by lia.
    apply Nat.eqb_eq in E. rewrite E. reflexivity.
  - rewrite partial_run_earlier by lia. apply adjust_init_nth; lia.
Qed.

Lemma adjust_rec_0 gm : (0 < length gm)%nat ->
  nth 0 (adjust_months gm) 0 =
  if Nat.eqb (mult gm (nth 0 gm 0)) 2
  then step_value gm (nth (length gm - 1) (adjust_init gm) 0) 0 0
  else if Nat.eqb (mult gm (nth 0 gm 0)) 1 then nth 0 gm 0 else 0.
Proof.
  intros H. rewrite adjust_as_run, (partial_run_later gm 0) by lia.
  rewrite partial_run_S. destruct (Nat.eqb (mult gm (nth 0 gm 0)) 2) eqn:E.
  - rewrite adjust_step_value, upd_nth, Nat.eqb_refl, partial_run_length.
    destruct (Nat.ltb_spec 0 (length gm)); [|lia].
    cbn [wrap_pred]. rewrite !partial_run_earlier by lia.
    rewrite (adjust_init_nth gm 0) by lia.
    apply Nat.eqb_eq in E. rewrite E. reflexivity.
  - rewrite partial_run_earlier by lia. apply adjust_init_nth; lia.
Qed.

(** months occurring once are kept *)
Lemma adjust_single gm i : (i < length gm)%nat -> count_occ Z.eq_dec gm (nth i gm 0) = 1%nat ->
  nth i (adjust_months gm) 0 = nth i gm 0.
Proof.
  intros H C. destruct i as [|i]; [rewrite adjust_rec_0|rewrite adjust_rec_S]; auto;
    unfold mult; rewrite C; reflexivity.
Qed.

Lemma adjust_nodup gm : NoDup gm -> adjust_months gm = gm.
Proof.
  intros N. apply (nth_ext _ _ 0 0); [apply adjust_months_length|].
  intros i Hi. rewrite adjust_months_length in Hi. apply adjust_single; [exact Hi|].
  apply (NoDup_count_occ' Z.eq_dec) ; [exact N|]. now apply nth_In.
Qed.

(** three or more copies become 0 *)
Lemma adjust_many gm i : (i < length gm)%nat -> (3 <= count_occ Z.eq_dec gm (nth i gm 0%Z))%nat ->
  nth i (adjust_months gm) 0 = 0.
Proof.
  intros H C. destruct i as [|i]; [rewrite adjust_rec_0|rewrite adjust_rec_S]; auto; unfold mult;
    set (c := count_occ _ _ _) in *; destruct (Nat.eqb_spec c 2), (Nat.eqb_spec c 1); lia.
Qed.

(** an adjacent doublet inside the series *)
Lemma adjust_doublet gm j a :
  let p := nth j gm 0 in
  (S (S j) < length gm)%nat ->
  nth (S j) gm 0 = a -> nth (S (S j)) gm 0 = a -> count_occ Z.eq_dec gm a = 2%nat ->
  a <> 0 -> p <> a ->
  let first  := nth (S j) (adjust_months gm) 0 in
  let second := nth (S (S j)) (adjust_months gm) 0 in
  let next_follows := S (S (S j)) = length gm \/
                      (S (S (S j)) < length gm)%nat /\ nth (S (S (S j))) gm 0 = a + 1 in
  (p = a - 1 -> first = a /\ second = a + 1) /\
  (p <> a - 1 -> (p = a - 2 \/ next_follows) -> first = a - 1 /\ second = a) /\
  (p <> a - 1 -> p <> a - 2 -> ~ next_follows -> first = 0 /\ second = a).
Proof.
  intros p H E1 E2 C Ha Hp first second nf.
  assert (F : first = step_value gm (nth j (adjust_months gm) 0) 0 (S j)).
  { unfold first. rewrite adjust_rec_S by lia. unfold mult. rewrite E1, C. reflexivity. }
  assert (S2 : second = step_value gm first 0 (S (S j))).
  { unfold second. rewrite adjust_rec_S by lia. unfold mult. rewrite E2, C. reflexivity. }
  clearbody first second.
  unfold step_value in F, S2. cbn [wrap_pred] in F, S2.
  replace (S j + 1)%nat with (S (S j)) in F by lia.
  replace (S j + 2)%nat with (S (S (S j))) in F by lia.
  rewrite E1, E2 in F. rewrite E1, E2 in S2. fold p in F.
  destruct (Nat.ltb_spec (S j) (length gm - 1)); [|lia].
  assert (S2' : second = if negb (a =? first) then a else a + 1).
  { rewrite S2. destruct (Z.eqb_spec a (a + 1)); [lia|]. rewrite Z.eqb_refl. cbn [andb].
    destruct (negb (a =? first)); reflexivity. }
  clear S2. unfold nf.
  destruct (Nat.ltb_spec (S j) (length gm - 2)) as [L|L];
  repeat split; intros; subst first; rewrite ?S2';
    destruct (Z.eqb_spec a (p + 1)); destruct (Z.eqb_spec a p); destruct (Z.eqb_spec a (p + 2));
      rewrite ?Z.eqb_refl; cbn [andb orb negb] in *; try lia;
    try (destruct (Z.eqb_spec (nth (S (S (S j))) gm 0) (a + 1))); try lia;
    repeat match goal with |- context [?x =? ?y] => destruct (Z.eqb_spec x y) end; try lia; try reflexivity.
Qed.

(** strictly increasing series *)
Definition increasing (t : list Z) : Prop :=
  forall i k, (i < k < length t)%nat -> nth i t 0 < nth k t 0.

Lemma count_one_pos (l : list Z) (a : Z) :
  (forall i k, (i < length l)%nat -> (k < length l)%nat -> nth i l 0 = a -> nth k l 0 = a -> i = k) ->
  forall i, (i < length l)%nat -> nth i l 0 = a -> count_occ Z.eq_dec l a = 1%nat.
Proof.
  induction l as [|x l IH]; intros U i Hi E; [cbn in Hi; lia|].
  cbn [count_occ]. destruct (Z.eq_dec x a) as [->|N].
  - f_equal. apply count_occ_not_In. intros Hin.
    destruct (In_nth _ _ 0 Hin) as (k & Hk & Ek).
    specialize (U 0%nat (S k)). cbn in U. specialize (U ltac:(lia) ltac:(lia) eq_refl Ek). lia.
  - destruct i as [|i]; [cbn in E; congruence|]. apply (IH) with (i := i); [|cbn in Hi; lia|exact E].
    intros i' k' Hi' Hk' Ei Ek. specialize (U (S i') (S k')). cbn in U.
    specialize (U ltac:(lia) ltac:(lia) Ei Ek). lia.
Qed.

Lemma count_upd (l : list Z) j v a : (j < length l)%nat ->
  (count_occ Z.eq_dec (upd l j v) a + (if Z.eq_dec (nth j l 0%Z) a then 1 else 0)
   = count_occ Z.eq_dec l a + (if Z.eq_dec v a then 1 else 0))%nat.
Proof.
  revert j; induction l as [|x l IH]; intros j H; [cbn in H; lia|].
  destruct j as [|j]; cbn [upd count_occ nth].
  - destruct (Z.eq_dec v a), (Z.eq_dec x a); lia.
  - specialize (IH j ltac:(cbn in H; lia)). destruct (Z.eq_dec x a); lia.
Qed.

Lemma increasing_count t i : increasing t -> (i < length t)%nat -> count_occ Z.eq_dec t (nth i t 0) = 1%nat.
Proof.
  intros I Hi. apply (count_one_pos t _) with (i := i); auto.
  intros x y Hx Hy Ex Ey. destruct (Nat.lt_trichotomy x y) as [L|[->|L]]; auto; exfalso.
  - specialize (I x y ltac:(lia)). lia.
  - specialize (I y x ltac:(lia)). lia.
Qed.

Lemma increasing_inj t i k : increasing t -> (i < length t)%nat -> (k < length t)%nat -> nth i t 0 = nth k t 0 -> i = k.
Proof.
  intros I Hi Hk E. destruct (Nat.lt_trichotomy i k) as [L|[->|L]]; auto; exfalso.
  - specialize (I i k ltac:(lia)). lia.
  - specialize (I k i ltac:(lia)). lia.
Qed.

(** replacing entry x by the value of the other entry y gives a doublet and
    leaves the other entries single *)
Lemma distort_counts t x y : increasing t -> (x < length t)%nat -> (y < length t)%nat -> x <> y ->
  let gm := upd t x (nth y t 0) in
  count_occ Z.eq_dec gm (nth y t 0) = 2%nat /\
  forall i, (i < length t)%nat -> i <> x -> i <> y ->
    nth i gm 0 = nth i t 0 /\ count_occ Z.eq_dec gm (nth i gm 0) = 1%nat.
Proof.
  intros I Hx Hy N gm. unfold gm. split.
  - pose proof (count_upd t x (nth y t 0) (nth y t 0) Hx) as C.
    rewrite (increasing_count t y I Hy) in C.
    destruct (Z.eq_dec (nth x t 0) (nth y t 0)) as [E|_];
      [exfalso; apply N; eapply increasing_inj; eauto|].
    destruct (Z.eq_dec (nth y t 0) (nth y t 0)); [lia|congruence].
  - intros i Hi N1 N2. rewrite upd_nth. destruct (Nat.eqb_spec x i); [congruence|].
    split; [reflexivity|].
    pose proof (count_upd t x (nth y t 0) (nth i t 0) Hx) as C.
    rewrite (increasing_count t i I Hi) in C.
    destruct (Z.eq_dec (nth x t 0) (nth i t 0)) as [E|_];
      [exfalso; apply N1; symmetry; eapply increasing_inj; eauto|].
    destruct (Z.eq_dec (nth y t 0) (nth i t 0)) as [E|_];
      [exfalso; apply N2; symmetry; eapply increasing_inj; eauto|]. lia.
Qed.

Definition positive_months (t : list Z) := forall i, (i < length t)%nat -> 0 < nth i t 0.

(** [S j] and [S (S j)]: consecutive entries with consecutive months. *)
Lemma repair_slipped_back t j :
  increasing t -> positive_months t -> (S (S j) < length t)%nat ->
  nth (S (S j)) t 0 = nth (S j) t 0 + 1 ->
  (adjust_months (upd t (S (S j)) (nth (S j) t 0)) = t <-> nth j t 0 = nth (S j) t 0 - 1).
Proof.
  intros I P H A. set (gm := upd t (S (S j)) (nth (S j) t 0)).
  assert (Lg : length gm = length t) by apply upd_length.
  destruct (distort_counts t (S (S j)) (S j) I ltac:(lia) ltac:(lia) ltac:(lia)) as [C O].
  fold gm in C, O.
  assert (G1 : nth (S j) gm 0 = nth (S j) t 0).
  { unfold gm. rewrite upd_nth. destruct (Nat.eqb_spec (S (S j)) (S j)); [lia|reflexivity]. }
  assert (G2 : nth (S (S j)) gm 0 = nth (S j) t 0).
  { unfold gm. rewrite upd_nth, Nat.eqb_refl. destruct (Nat.ltb_spec (S (S j)) (length t)); [reflexivity|lia]. }
  assert (G0 : nth j gm 0 = nth j t 0) by (apply O; lia).
  pose proof (adjust_doublet gm j (nth (S j) t 0)) as D. cbv zeta in D.
  rewrite G0 in D. pose proof (P (S j) ltac:(lia)). pose proof (I j (S j) ltac:(lia)).
  specialize (D ltac:(lia) G1 G2 C ltac:(lia) ltac:(lia)). destruct D as (D1 & D2 & D3).
  split.
  - intros E. destruct (Z.eq_dec (nth j t 0) (nth (S j) t 0 - 1)) as [Q|Q]; [exact Q|exfalso].
    assert (B : nth (S (S j)) (adjust_months gm) 0 = nth (S j) t 0).
    { destruct (Z.eq_dec (nth j t 0) (nth (S j) t 0 - 2)) as [Q2|Q2]; [apply D2; auto|].
      destruct (Nat.eq_dec (S (S (S j))) (length gm)) as [Q3|Q3]; [apply D2; auto|].
      destruct (Z.eq_dec (nth (S (S (S j))) gm 0) (nth (S j) t 0 + 1)) as [Q4|Q4];
        [apply D2; auto; right; right; split; [lia|exact Q4]|].
      apply D3; auto. intros [X|[_ X]]; congruence. }
    rewrite E, A in B. lia.
  - intros Q. destruct (D1 Q) as [F S2]. apply (nth_ext _ _ 0 0); [now rewrite adjust_months_length|].
    intros i Hi. rewrite adjust_months_length, Lg in Hi.
    destruct (Nat.eq_dec i (S j)) as [->|N1]; [exact F|].
    destruct (Nat.eq_dec i (S (S j))) as [->|N2]; [now rewrite A|].
    destruct (O i Hi N2 N1) as [O1 O2]. rewrite <- O1. apply adjust_single; [lia|exact O2].
Qed.

Lemma repair_slipped_forward t j :
  increasing t -> positive_months t -> (S (S j) < length t)%nat ->
  nth (S (S j)) t 0 = nth (S j) t 0 + 1 ->
  (adjust_months (upd t (S j) (nth (S (S j)) t 0)) = t <->
   nth j t 0 = nth (S j) t 0 - 1 \/ S (S (S j)) = length t \/
   (S (S (S j)) < length t)%nat /\ nth (S (S (S j))) t 0 = nth (S (S j)) t 0 + 1).
Proof.
  intros I P H A. set (gm := upd t (S j) (nth (S (S j)) t 0)).
  assert (Lg : length gm = length t) by apply upd_length.
  destruct (distort_counts t (S j) (S (S j)) I ltac:(lia) ltac:(lia) ltac:(lia)) as [C O].
  fold gm in C, O.
  assert (G1 : nth (S j) gm 0 = nth (S (S j)) t 0).
  { unfold gm. rewrite upd_nth, Nat.eqb_refl. destruct (Nat.ltb_spec (S j) (length t)); [reflexivity|lia]. }
  assert (G2 : nth (S (S j)) gm 0 = nth (S (S j)) t 0).
  { unfold gm. rewrite upd_nth. destruct (Nat.eqb_spec (S j) (S (S j))); [lia|reflexivity]. }
  assert (G0 : nth j gm 0 = nth j t 0) by (apply O; lia).
  assert (G3 : (S (S (S j)) < length t)%nat -> nth (S (S (S j))) gm 0 = nth (S (S (S j))) t 0) by (intros; apply O; lia).
  pose proof (adjust_doublet gm j (nth (S (S j)) t 0)) as D. cbv zeta in D.
  rewrite G0 in D. pose proof (P (S j) ltac:(lia)). pose proof (I j (S j) ltac:(lia)).
  specialize (D ltac:(lia) G1 G2 C ltac:(lia) ltac:(lia)). destruct D as (D1 & D2 & D3).
  rewrite Lg in D2, D3.
  assert (Others : forall i, (i < length t)%nat -> i <> S j -> i <> S (S j) -> nth i (adjust_months gm) 0 = nth i t 0).
  { intros i Hi N1 N2. destruct (O i Hi N1 N2) as [O1 O2]. rewrite <- O1. apply adjust_single; [lia|exact O2]. }
  assert (Fin : nth (S j) (adjust_months gm) 0 = nth (S (S j)) t 0 - 1 /\ nth (S (S j)) (adjust_months gm) 0 = nth (S (S j)) t 0 ->
     adjust_months gm = t).
  { intros [F S2]. apply (nth_ext _ _ 0 0); [now rewrite adjust_months_length|].
    intros i Hi. rewrite adjust_months_length, Lg in Hi.
    destruct (Nat.eq_dec i (S j)) as [->|N1]; [rewrite F; lia|].
    destruct (Nat.eq_dec i (S (S j))) as [->|N2]; [exact S2|]. apply Others; auto. }
  split.
  - intros E. destruct (Z.eq_dec (nth j t 0) (nth (S j) t 0 - 1)) as [Q|Q]; [auto|right].
    destruct (Nat.eq_dec (S (S (S j))) (length t)) as [Q3|Q3]; [auto|right].
    split; [lia|].
    destruct (Z.eq_dec (nth (S (S (S j))) t 0) (nth (S (S j)) t 0 + 1)) as [Q4|Q4]; [exact Q4|exfalso].
    destruct D3 as [F _]; [lia|lia| |].
    + intros [X|[X Y]]; [congruence|]. rewrite G3 in Y by exact X. congruence.
    + rewrite E in F. lia.
  - intros [Q|Q]; apply Fin; apply D2; [lia|lia|lia|].
    right. destruct Q as [Q|[Q Q']]; [auto|right; split; [exact Q|now rewrite G3]].
Qed.

(** a doublet at the very beginning: the wrapped index makes the last entry the
    predecessor *)
Lemma repair_forward_start t : increasing t -> positive_months t -> (2 < length t)%nat ->
  nth 1 t 0 = nth 0 t 0 + 1 ->
  (adjust_months (upd t 0 (nth 1 t 0)) = t <-> nth 2 t 0 = nth 1 t 0 + 1).
Proof.
  intros I P H A. set (gm := upd t 0 (nth 1 t 0)).
  assert (Lg : length gm = length t) by apply upd_length.
  destruct (distort_counts t 0 1 I ltac:(lia) ltac:(lia) ltac:(lia)) as [C O]. fold gm in C, O.
  assert (G0 : nth 0 gm 0 = nth 1 t 0).
  { unfold gm. rewrite upd_nth, Nat.eqb_refl. destruct (Nat.ltb_spec 0 (length t)); [reflexivity|lia]. }
  assert (G1 : nth 1 gm 0 = nth 1 t 0) by (unfold gm; rewrite upd_nth; reflexivity).
  assert (G2 : nth 2 gm 0 = nth 2 t 0) by (apply O; lia).
  assert (Gl : nth (length gm - 1) gm 0 = nth (length t - 1) t 0) by (rewrite Lg; apply O; lia).
  pose proof (I 1%nat (length t - 1)%nat ltac:(lia)) as Il. pose proof (P 0%nat ltac:(lia)) as P0.
  assert (F : nth 0 (adjust_months gm) 0 = if nth 2 t 0 =? nth 1 t 0 + 1 then nth 0 t 0 else 0).
  { rewrite adjust_rec_0 by lia. unfold mult. rewrite G0, C. cbn [Nat.eqb].
    unfold step_value. cbn [wrap_pred Nat.add]. rewrite G0, G1, G2, Gl.
    destruct (Nat.ltb_spec 0 (length gm - 1)); [|lia]. destruct (Nat.ltb_spec 0 (length gm - 2)); [|lia].
    destruct (Z.eqb_spec (nth 1 t 0) (nth (length t - 1) t 0 + 1)); [lia|].
    destruct (Z.eqb_spec (nth 1 t 0) (nth (length t - 1) t 0)); [lia|].
    destruct (Z.eqb_spec (nth 1 t 0) (nth (length t - 1) t 0 + 2)); [lia|].
    rewrite Z.eqb_refl. cbn [andb orb]. destruct (_ =? _); lia. }
  split.
  - intros E. rewrite E in F. destruct (Z.eqb_spec (nth 2 t 0) (nth 1 t 0 + 1)); [assumption|lia].
  - intros E. apply (nth_ext _ _ 0 0); [now rewrite adjust_months_length|].
    intros i Hi. rewrite adjust_months_length, Lg in Hi.
    rewrite <- E, Z.eqb_refl in F.
    destruct (Nat.eq_dec i 0) as [->|N0]; [exact F|].
    destruct (Nat.eq_dec i 1) as [->|N1].
    + rewrite adjust_rec_S by lia. unfold mult. rewrite G1, C. cbn [Nat.eqb].
      unfold step_value. cbn [wrap_pred]. rewrite G0, G1, F.
      destruct (Z.eqb_spec (nth 1 t 0) (nth 1 t 0 + 1)); [lia|]. rewrite Z.eqb_refl.
      destruct (Z.eqb_spec (nth 1 t 0) (nth 0 t 0)); [lia|]. reflexivity.
    + destruct (O i Hi N0 N1) as [O1 O2]. rewrite <- O1. apply adjust_single; [lia|exact O2].
Qed.

Lemma repair_back_start t : increasing t -> positive_months t -> (2 < length t)%nat ->
  nth 1 t 0 = nth 0 t 0 + 1 -> adjust_months (upd t 1 (nth 0 t 0)) <> t.
Proof.
  intros I P H A. set (gm := upd t 1 (nth 0 t 0)).
  assert (Lg : length gm = length t) by apply upd_length.
  destruct (distort_counts t 1 0 I ltac:(lia) ltac:(lia) ltac:(lia)) as [C O]. fold gm in C, O.
  assert (G0 : nth 0 gm 0 = nth 0 t 0) by (unfold gm; rewrite upd_nth; reflexivity).
  assert (G1 : nth 1 gm 0 = nth 0 t 0).
  { unfold gm. rewrite upd_nth, Nat.eqb_refl. destruct (Nat.ltb_spec 1 (length t)); [reflexivity|lia]. }
  assert (G2 : nth 2 gm 0 = nth 2 t 0) by (apply O; lia).
  assert (Gl : nth (length gm - 1) gm 0 = nth (length t - 1) t 0) by (rewrite Lg; apply O; lia).
  pose proof (I 1%nat (length t - 1)%nat ltac:(lia)) as Il. pose proof (P 0%nat ltac:(lia)) as P0.
  intros E.
  assert (F : nth 0 (adjust_months gm) 0 <> nth 0 t 0).
  { rewrite adjust_rec_0 by lia. unfold mult. rewrite G0, C. cbn [Nat.eqb].
    unfold step_value. cbn [wrap_pred Nat.add]. rewrite G0, G1, G2, Gl.
    destruct (Nat.ltb_spec 0 (length gm - 1)); [|lia]. destruct (Nat.ltb_spec 0 (length gm - 2)); [|lia].
    destruct (Z.eqb_spec (nth 0 t 0) (nth (length t - 1) t 0 + 1)); [lia|].
    destruct (Z.eqb_spec (nth 0 t 0) (nth (length t - 1) t 0)); [lia|].
    destruct (Z.eqb_spec (nth 0 t 0) (nth (length t - 1) t 0 + 2)); [lia|].
    rewrite Z.eqb_refl. cbn [andb orb]. destruct (_ =? _); lia. }
  apply F. now rewrite E.
Qed.
