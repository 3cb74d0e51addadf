(** Fully normalised associated Legendre functions, defined from the derivatives
    of the Legendre polynomials, and their classical recursions. *)
From Coq Require Import Reals Lra Lia.
From Coquelicot Require Import Coquelicot.
From Verif Require Import Base LegendreSpec.
Close Scope Z_scope.
Open Scope R_scope.

(** 4-pi normalised (geodesy) functions without Condon-Shortley phase:
    sqrt((2 - delta_m0) (2l+1) (l-m)!/(l+m)!) (1-x^2)^(m/2) (d/dx)^m P_l(x) *)
Definition Nlm (l m : nat) (x : R) : R :=
  sqrt ((if (m =? 0)%nat then 1 else 2) * (2 * INR l + 1) * INR (fact (l - m)) / INR (fact (l + m)))
  * sqrt (1 - x ^ 2) ^ m * Derive_n (legP l) m x.

(** m-th derivatives by recursion *)
Fixpoint LD (m : nat) : nat -> R -> R :=
  match m with
  | O => legP
  | S m' => fix row (l : nat) (x : R) {struct l} : R :=
      match l with
      | O => 0
      | S l' => match l' with O => LD m' 0%nat x | S k => row k x + (2 * INR k + 3) * LD m' (S k) x end
      end
  end.
Lemma LD_S_SS m k x : LD (S m) (S (S k)) x = LD (S m) k x + (2 * INR k + 3) * LD m (S k) x. Proof. reflexivity. Qed.
Lemma LD_S_0 m x : LD (S m) 0 x = 0. Proof. reflexivity. Qed.
Lemma LD_S_1 m x : LD (S m) 1 x = LD m 0 x. Proof. reflexivity. Qed.

Local Arguments LD : simpl never.
Lemma LD_1 l x : LD 1 l x = legD l x.
Proof.
  induction l as [| |k IH1 IH2] using two_step; [reflexivity|reflexivity|].
  rewrite LD_S_SS, IH1. pose proof (leg_deriv_diff k x). change (LD 0) with legP in *. lra.
Qed.

Lemma LD_derive m : forall l x, is_derive (LD m l) x (LD (S m) l x).
Proof.
  induction m as [|m IH]; intros l x.
  - rewrite LD_1. apply legP_derive.
  - induction l as [| |k IH1 IH2] using two_step.
    + apply (is_derive_const (V := R_NormedModule) 0).
    + rewrite LD_S_1. apply IH.
    + apply (is_derive_ext (fun x => LD (S m) k x + (2 * INR k + 3) * LD m (S k) x)); [intros; reflexivity|].
      rewrite LD_S_SS. apply (is_derive_plus (V := R_NormedModule)); [exact IH1|].
      apply (is_derive_scal (LD m (S k)) x). apply IH.
Qed.

Lemma DLD m l x : Derive (fun t => LD m l t) x = LD (S m) l x.
Proof. apply is_derive_unique, LD_derive. Qed.
Lemma LD_Derive_n m l x : Derive_n (legP l) m x = LD m l x.
Proof.
  revert x. induction m as [|m IH]; intros x; [reflexivity|]. cbn [Derive_n].
  rewrite (Derive_ext _ (LD m l)) by exact IH. apply is_derive_unique, LD_derive.
Qed.

Lemma LD_high m : forall l x, (l < m)%nat -> LD m l x = 0.
Proof.
  induction m as [|m IH]; intros l x H; [lia|].
  induction l as [| |k IH1 IH2] using two_step; [reflexivity|rewrite LD_S_1; apply IH; lia|].
  rewrite LD_S_SS, IH1, IH by lia. ring.
Qed.

(** (l+2-m) D^m P_(l+2) = (2l+3) x D^m P_(l+1) - (l+1+m) D^m P_l *)
Lemma LD_rec m l x : (INR l + 2 - INR m) * LD m (S (S l)) x = (2 * INR l + 3) * x * LD m (S l) x - (INR l + 1 + INR m) * LD m l x.
Proof.
  revert l x. induction m as [|m IH]; intros l x.
  - change (LD 0) with legP in *; cbn [INR]. rewrite legP_SS. pose proof (pos_INR l). field. lra.
  - (* differentiate the identity for m, then use the difference formula *)
    assert (D : (INR l + 2 - INR m) * LD (S m) (S (S l)) x =
      (2 * INR l + 3) * (LD m (S l) x + x * LD (S m) (S l) x) - (INR l + 1 + INR m) * LD (S m) l x).
    { assert (E1 : is_derive (fun x => (INR l + 2 - INR m) * LD m (S (S l)) x) x ((INR l + 2 - INR m) * LD (S m) (S (S l)) x))
        by (apply (is_derive_scal (LD m (S (S l))) x); apply LD_derive).
      assert (E2 : is_derive (fun x => (2 * INR l + 3) * x * LD m (S l) x - (INR l + 1 + INR m) * LD m l x) x
        ((2 * INR l + 3) * (LD m (S l) x + x * LD (S m) (S l) x) - (INR l + 1 + INR m) * LD (S m) l x)).
      { auto_derive; [repeat split; eexists; apply LD_derive|].
        rewrite !DLD.
        ring. }
      apply (is_derive_ext _ (fun x => (2 * INR l + 3) * x * LD m (S l) x - (INR l + 1 + INR m) * LD m l x)) in E1.
      2:{ intros t. apply IH. }
      apply is_derive_unique in E1. apply is_derive_unique in E2. congruence. }
    rewrite S_INR. pose proof (LD_S_SS m l x) as F.
    replace ((2 * INR l + 3) * (LD m (S l) x + x * LD (S m) (S l) x)) with
      ((2 * INR l + 3) * LD m (S l) x + (2 * INR l + 3) * x * LD (S m) (S l) x) in D by ring.
    replace ((2 * INR l + 3) * LD m (S l) x) with (LD (S m) (S (S l)) x - LD (S m) l x) in D by lra. lra.
Qed.

(** sectorial: D^(m+1) P_(m+1) = (2m+1) D^m P_m ; next: D^m P_(m+1) = (2m+1) x D^m P_m *)
Lemma LD_sect m x : LD (S m) (S m) x = (2 * INR m + 1) * LD m m x.
Proof.
  destruct m as [|m]; [unfold LD; cbn; ring|]. rewrite LD_S_SS, LD_high by lia. rewrite S_INR. ring.
Qed.
Lemma LD_sect_pos m x : 0 < LD m m x.
Proof. induction m as [|m IH]; [unfold LD; cbn; lra|]. rewrite LD_sect. pose proof (pos_INR m). apply Rmult_lt_0_compat; lra. Qed.
Lemma LD_next m x : LD m (S m) x = (2 * INR m + 1) * x * LD m m x.
Proof.
  destruct m as [|m]; [unfold LD; cbn; ring|]. pose proof (LD_rec (S m) m x) as H.
  rewrite (LD_high (S m) m) in H by lia. rewrite !S_INR in *. lra.
Qed.
(** (1-x^2) D^(m+1) P_(l+1) = (l+1+m) D^m P_l - ... in the form used for the slope:
    (1-x^2) D^(m+1)P_l - m x D^m P_l = (l+m) D^m P_(l-1) - l x D^m P_l *)
Lemma LD_slope m l x : (1 - x * x) * LD (S m) (S l) x - INR m * x * LD m (S l) x =
  (INR l + 1 + INR m) * LD m l x - (INR l + 1) * x * LD m (S l) x.
Proof.
  revert l x. induction m as [|m IH]; intros l x.
  - cbn [INR]. rewrite LD_1. change (LD 0) with legP in *. destruct (leg_identities l x) as (_ & _ & C). lra.
  - assert (D : -2 * x * LD (S m) (S l) x + (1 - x * x) * LD (S (S m)) (S l) x - (INR m * LD m (S l) x + INR m * x * LD (S m) (S l) x) =
      (INR l + 1 + INR m) * LD (S m) l x - (INR l + 1) * (LD m (S l) x + x * LD (S m) (S l) x)).
    { assert (E1 : is_derive (fun x => (1 - x * x) * LD (S m) (S l) x - INR m * x * LD m (S l) x) x
         (-2 * x * LD (S m) (S l) x + (1 - x * x) * LD (S (S m)) (S l) x - (INR m * LD m (S l) x + INR m * x * LD (S m) (S l) x))).
      { auto_derive; [repeat split; eexists; apply LD_derive|].
        rewrite !DLD. ring. }
      assert (E2 : is_derive (fun x => (INR l + 1 + INR m) * LD m l x - (INR l + 1) * x * LD m (S l) x) x
         ((INR l + 1 + INR m) * LD (S m) l x - (INR l + 1) * (LD m (S l) x + x * LD (S m) (S l) x))).
      { auto_derive; [repeat split; eexists; apply LD_derive|].
        rewrite !DLD. ring. }
      apply (is_derive_ext _ (fun x => (INR l + 1 + INR m) * LD m l x - (INR l + 1) * x * LD m (S l) x)) in E1.
      2:{ intros t. apply IH. }
      apply is_derive_unique in E1. apply is_derive_unique in E2. congruence. }
    (* x D^(m+1) P_(l+1) - D^(m+1) P_l = (l+1-m) D^m P_(l+1) *)
    assert (A : x * LD (S m) (S l) x - LD (S m) l x = (INR l + 1 - INR m) * LD m (S l) x).
    { clear D IH. revert x. induction m as [|m IHm]; intros x.
      - rewrite !LD_1. change (LD 0) with legP in *; cbn [INR]. destruct (leg_identities l x) as (A & _). lra.
      - assert (E1 : is_derive (fun x => x * LD (S m) (S l) x - LD (S m) l x) x
           (LD (S m) (S l) x + x * LD (S (S m)) (S l) x - LD (S (S m)) l x)).
        { auto_derive; [repeat split; eexists; apply LD_derive|].
          rewrite !DLD. ring. }
        assert (E2 : is_derive (fun x => (INR l + 1 - INR m) * LD m (S l) x) x ((INR l + 1 - INR m) * LD (S m) (S l) x)).
        { apply (is_derive_scal (LD m (S l)) x). apply LD_derive. }
        apply (is_derive_ext _ (fun x => (INR l + 1 - INR m) * LD m (S l) x)) in E1; [|intros t; apply IHm].
        apply is_derive_unique in E1. apply is_derive_unique in E2. rewrite E2 in E1. rewrite S_INR. lra. }
    rewrite S_INR. nra.
Qed.

(** ** normalised functions *)
(** the same functions with sqrt(1-x^2) replaced by a free u (the code replaces a
    zero u by eps at the poles) *)
Definition NU (l m : nat) (x u : R) : R :=
  sqrt ((if (m =? 0)%nat then 1 else 2) * (2 * INR l + 1) * INR (fact (l - m)) / INR (fact (l + m))) * u ^ m * LD m l x.
Lemma Nlm_NU l m x : Nlm l m x = NU l m x (sqrt (1 - x ^ 2)).
Proof. unfold Nlm, NU. now rewrite LD_Derive_n. Qed.
Lemma Nlm_LD l m x : Nlm l m x =
  sqrt ((if (m =? 0)%nat then 1 else 2) * (2 * INR l + 1) * INR (fact (l - m)) / INR (fact (l + m))) * sqrt (1 - x ^ 2) ^ m * LD m l x.
Proof. unfold Nlm. now rewrite LD_Derive_n. Qed.
Lemma NU_high l m x u : (l < m)%nat -> NU l m x u = 0.
Proof. intros H. unfold NU; rewrite LD_high by exact H. ring. Qed.
Definition eps_m (m : nat) : R := if (m =? 0)%nat then 1 else 2.
Lemma eps_pos m : 0 < eps_m m. Proof. unfold eps_m. destruct (m =? 0)%nat; lra. Qed.
(** normalisation factor at degree m+k *)
Definition Kn (m k : nat) : R := sqrt (eps_m m * (2 * (INR m + INR k) + 1) * INR (fact k) / INR (fact (2 * m + k))).
Lemma NU_Kn m k x u : NU (m + k) m x u = Kn m k * u ^ m * LD m (m + k) x.
Proof.
  unfold NU. unfold Kn, eps_m. rewrite plus_INR. replace (m + k - m)%nat with k by lia.
  replace (m + k + m)%nat with (2 * m + k)%nat by lia. reflexivity.
Qed.
Lemma Kn_arg m k : 0 < eps_m m * (2 * (INR m + INR k) + 1) * INR (fact k) / INR (fact (2 * m + k)).
Proof.
  pose proof (pos_INR m). pose proof (pos_INR k). pose proof (INR_fact_lt_0 k). pose proof (INR_fact_lt_0 (2 * m + k)). pose proof (eps_pos m).
  apply Rdiv_lt_0_compat; [|assumption]. apply Rmult_lt_0_compat; [|assumption]. apply Rmult_lt_0_compat; lra.
Qed.
Lemma Kn_pos m k : 0 < Kn m k. Proof. apply sqrt_lt_R0, Kn_arg. Qed.
Lemma Kn_sq m k : Kn m k * Kn m k = eps_m m * (2 * (INR m + INR k) + 1) * INR (fact k) / INR (fact (2 * m + k)).
Proof. apply sqrt_sqrt. left. apply Kn_arg. Qed.

Lemma sq_eq a b : 0 <= a -> 0 <= b -> a * a = b * b -> a = b.
Proof. intros. nra. Qed.
Lemma sqrt_mul_sq a b c : 0 <= a -> 0 <= b -> 0 <= c -> a * a = b * (c * c) -> a = sqrt b * c.
Proof.
  intros Ha Hb Hc E. apply sq_eq; [assumption|apply Rmult_le_pos; [apply sqrt_pos|assumption]|].
  replace (sqrt b * c * (sqrt b * c)) with (sqrt b * sqrt b * (c * c)) by ring. now rewrite sqrt_sqrt.
Qed.

Lemma INR_fact_S n : INR (fact (S n)) = (INR n + 1) * INR (fact n).
Proof. change (fact (S n)) with (S n * fact n)%nat. now rewrite mult_INR, S_INR. Qed.

Lemma NU_0_0 x u : NU 0 0 x u = 1.
Proof. unfold NU. cbn. replace (1 * (2 * 0 + 1) * 1 / 1) with 1 by lra. rewrite sqrt_1. unfold LD. cbn. ring. Qed.
Lemma NU_1_0 x u : NU 1 0 x u = sqrt 3 * x.
Proof. unfold NU. cbn. replace (1 * (2 * 1 + 1) * 1 / 1) with 3 by lra. unfold LD. cbn. ring. Qed.
Lemma NU_1_1 x u : NU 1 1 x u = sqrt 3 * u.
Proof.
  unfold NU. cbn -[pow]. replace (2 * (2 * 1 + 1) * 1 / (1 + 1)) with 3 by lra. rewrite pow_1. unfold LD. cbn -[pow]. ring.
Qed.
(** zonal functions are sqrt(2l+1) P_l *)
Lemma NU_zonal l x u : NU l 0 x u = sqrt (2 * INR l + 1) * legP l x.
Proof.
  unfold NU. cbn [Nat.eqb pow]. change (LD 0) with legP. rewrite Nat.sub_0_r, Nat.add_0_r.
  pose proof (INR_fact_lt_0 l). replace (1 * (2 * INR l + 1) * INR (fact l) / INR (fact l)) with (2 * INR l + 1) by (field; lra). ring.
Qed.

Lemma NU_sect m x u : (1 <= m)%nat ->
  NU (S m) (S m) x u = sqrt ((2 * INR m + 3) / (2 * INR m + 2)) * u * NU m m x u.
Proof.
  intros Hm. replace (NU (S m) (S m) x u) with (NU (S m + 0) (S m) x u) by (f_equal; lia).
  replace (NU m m x u) with (NU (m + 0) m x u) by (f_equal; lia).
  rewrite !NU_Kn, !Nat.add_0_r, LD_sect. cbn [pow]. pose proof (pos_INR m) as Pm.
  assert (K : Kn (S m) 0 * (2 * INR m + 1) = sqrt ((2 * INR m + 3) / (2 * INR m + 2)) * Kn m 0).
  { apply sqrt_mul_sq.
    - apply Rmult_le_pos; [left; apply Kn_pos|lra].
    - left. apply Rdiv_lt_0_compat; lra.
    - left; apply Kn_pos.
    - replace (Kn (S m) 0 * (2 * INR m + 1) * (Kn (S m) 0 * (2 * INR m + 1))) with (Kn (S m) 0 * Kn (S m) 0 * (2 * INR m + 1) ^ 2) by ring.
      rewrite !Kn_sq. unfold eps_m. replace (S m =? 0)%nat with false by reflexivity. destruct (Nat.eqb_spec m 0); [lia|].
      replace (2 * S m + 0)%nat with (S (S (2 * m + 0))) by lia. rewrite !INR_fact_S, !S_INR, plus_INR, mult_INR. cbn [INR].
      pose proof (INR_fact_lt_0 (2 * m + 0)). field. repeat split; lra. }
  replace (Kn (S m) 0 * (u * u ^ m) * ((2 * INR m + 1) * LD m m x))
    with (Kn (S m) 0 * (2 * INR m + 1) * (u * u ^ m) * LD m m x) by ring.
  rewrite K. ring.
Qed.

Lemma NU_next m x u : NU (S m) m x u = sqrt (2 * INR m + 3) * x * NU m m x u.
Proof.
  replace (NU (S m) m x u) with (NU (m + 1) m x u) by (f_equal; lia).
  replace (NU m m x u) with (NU (m + 0) m x u) by (f_equal; lia).
  rewrite !NU_Kn, Nat.add_0_r. replace (m + 1)%nat with (S m) by lia. rewrite LD_next. pose proof (pos_INR m) as Pm.
  assert (K : Kn m 1 * (2 * INR m + 1) = sqrt (2 * INR m + 3) * Kn m 0).
  { apply sqrt_mul_sq.
    - apply Rmult_le_pos; [left; apply Kn_pos|lra].
    - lra.
    - left; apply Kn_pos.
    - replace (Kn m 1 * (2 * INR m + 1) * (Kn m 1 * (2 * INR m + 1))) with (Kn m 1 * Kn m 1 * (2 * INR m + 1) ^ 2) by ring.
      rewrite !Kn_sq. replace (2 * m + 1)%nat with (S (2 * m)) by lia. rewrite Nat.add_0_r. change (fact 1) with 1%nat. change (fact 0) with 1%nat.
      rewrite INR_fact_S, mult_INR. change (INR 2) with 2. change (INR 1) with 1. change (INR 0) with 0.
      pose proof (INR_fact_lt_0 (2 * m)). field. repeat split; lra. }
  replace (Kn m 1 * u ^ m * ((2 * INR m + 1) * x * LD m m x))
    with (Kn m 1 * (2 * INR m + 1) * u ^ m * x * LD m m x) by ring.
  rewrite K. ring.
Qed.

(** coefficients of the degree recursion *)
Definition aLM (l m : R) : R := sqrt ((2 * l - 1) * (2 * l + 1) / ((l - m) * (l + m))).
Definition bLM (l m : R) : R := sqrt ((2 * l + 1) * (l + m - 1) * (l - m - 1) / ((l - m) * (l + m) * (2 * l - 3))).

Lemma NU_rec_k m k x u : let L := INR (m + S (S k)) in let M := INR m in
  NU (m + S (S k)) m x u = aLM L M * x * NU (m + S k) m x u - bLM L M * NU (m + k) m x u.
Proof.
  cbv zeta. rewrite !NU_Kn. pose proof (pos_INR m) as Pm. pose proof (pos_INR k) as Pk.
  set (L := INR (m + S (S k))). set (M := INR m) in *.
  assert (EL : L = M + INR k + 2) by (unfold L, M; rewrite plus_INR, !S_INR; ring).
  pose proof (INR_fact_lt_0 k) as F1. pose proof (INR_fact_lt_0 (2 * m + k)) as F2.
  assert (A : Kn m (S (S k)) * (2 * L - 1) = (aLM L M * Kn m (S k)) * (L - M)).
  { rewrite Rmult_assoc. unfold aLM. apply sqrt_mul_sq.
    - apply Rmult_le_pos; [left; apply Kn_pos|lra].
    - left. apply Rdiv_lt_0_compat; apply Rmult_lt_0_compat; lra.
    - apply Rmult_le_pos; [left; apply Kn_pos|lra].
    - replace (Kn m (S (S k)) * (2 * L - 1) * (Kn m (S (S k)) * (2 * L - 1))) with (Kn m (S (S k)) * Kn m (S (S k)) * (2 * L - 1) ^ 2) by ring.
      replace (Kn m (S k) * (L - M) * (Kn m (S k) * (L - M))) with (Kn m (S k) * Kn m (S k) * (L - M) ^ 2) by ring.
      rewrite !Kn_sq. replace (2 * m + S (S k))%nat with (S (S (2 * m + k))) by lia. replace (2 * m + S k)%nat with (S (2 * m + k)) by lia.
      rewrite !INR_fact_S, !S_INR, plus_INR, mult_INR. cbn [INR]. fold M. rewrite EL. field. repeat split; lra. }
  assert (B : Kn m (S (S k)) * (L + M - 1) = (bLM L M * Kn m k) * (L - M)).
  { rewrite Rmult_assoc. unfold bLM. apply sqrt_mul_sq.
    - apply Rmult_le_pos; [left; apply Kn_pos|lra].
    - left. apply Rdiv_lt_0_compat; repeat apply Rmult_lt_0_compat; lra.
    - apply Rmult_le_pos; [left; apply Kn_pos|lra].
    - replace (Kn m (S (S k)) * (L + M - 1) * (Kn m (S (S k)) * (L + M - 1))) with (Kn m (S (S k)) * Kn m (S (S k)) * (L + M - 1) ^ 2) by ring.
      replace (Kn m k * (L - M) * (Kn m k * (L - M))) with (Kn m k * Kn m k * (L - M) ^ 2) by ring.
      rewrite !Kn_sq. replace (2 * m + S (S k))%nat with (S (S (2 * m + k))) by lia.
      rewrite !INR_fact_S, !S_INR, plus_INR, mult_INR. cbn [INR]. fold M. rewrite EL. field. repeat split; lra. }
  pose proof (LD_rec m (m + k) x) as R. rewrite plus_INR in R. fold M in R.
  replace (m + S (S k))%nat with (S (S (m + k))) by lia. replace (m + S k)%nat with (S (m + k)) by lia.
  set (U := u ^ m).
  apply Rmult_eq_reg_r with (L - M); [|lra].
  replace (Kn m (S (S k)) * U * LD m (S (S (m + k))) x * (L - M)) with (Kn m (S (S k)) * U * ((M + INR k + 2 - M) * LD m (S (S (m + k))) x)) by (rewrite EL; ring).
  rewrite R.
  replace (Kn m (S (S k)) * U * ((2 * (M + INR k) + 3) * x * LD m (S (m + k)) x - (M + INR k + 1 + M) * LD m (m + k) x))
    with (Kn m (S (S k)) * (2 * L - 1) * U * x * LD m (S (m + k)) x - Kn m (S (S k)) * (L + M - 1) * U * LD m (m + k) x) by (rewrite EL; ring).
  rewrite A, B. ring.
Qed.
Lemma NU_rec l m x u : (m + 2 <= l)%nat ->
  NU l m x u = aLM (INR l) (INR m) * x * NU (l - 1) m x u - bLM (INR l) (INR m) * NU (l - 2) m x u.
Proof.
  intros H. pose proof (NU_rec_k m (l - m - 2) x u) as R. cbv zeta in R.
  replace (m + S (S (l - m - 2)))%nat with l in R by lia. replace (m + S (l - m - 2))%nat with (l - 1)%nat in R by lia.
  replace (m + (l - m - 2))%nat with (l - 2)%nat in R by lia. exact R.
Qed.
(** also for l = m+1, where the second coefficient vanishes *)
Lemma NU_rec1 l m x u : (m < l)%nat -> (2 <= l)%nat ->
  NU l m x u = aLM (INR l) (INR m) * x * NU (l - 1) m x u - bLM (INR l) (INR m) * NU (l - 2) m x u.
Proof.
  intros H H2. destruct (Nat.eq_dec l (S m)) as [->|N]; [|apply NU_rec; lia].
  rewrite NU_next. replace (S m - 1)%nat with m by lia. rewrite (NU_high (S m - 2)) by lia.
  replace (aLM (INR (S m)) (INR m)) with (sqrt (2 * INR m + 3)); [ring|].
  unfold aLM. f_equal. rewrite S_INR. pose proof (pos_INR m). field. lra.
Qed.

(** the functions themselves *)
Lemma Nlm_high l m x : (l < m)%nat -> Nlm l m x = 0.
Proof. intros H. rewrite Nlm_NU. now apply NU_high. Qed.
Lemma Nlm_zonal l x : Nlm l 0 x = sqrt (2 * INR l + 1) * legP l x.
Proof. rewrite Nlm_NU. apply NU_zonal. Qed.

(** slope: d/dtheta N_lm(cos theta) *)
Definition fLM (l m : R) : R := sqrt ((l ^ 2 - m ^ 2) * (2 * l + 1) / (2 * l - 1)).
Lemma Nlm_slope l m th : (1 <= l)%nat -> (m <= l)%nat -> 0 < sin th ->
  is_derive (fun t => Nlm l m (cos t)) th
    ((INR l * cos th * Nlm l m (cos th) - fLM (INR l) (INR m) * Nlm (l - 1) m (cos th)) / sin th).
Proof.
  intros Hl Hm Hs. destruct l as [|l]; [lia|]. replace (S l - 1)%nat with l by lia.
  set (C := sqrt ((if (m =? 0)%nat then 1 else 2) * (2 * INR (S l) + 1) * INR (fact (S l - m)) / INR (fact (S l + m)))).
  assert (Su : forall t, 0 < sin t -> sqrt (1 - cos t ^ 2) = sin t).
  { intros t Ht. replace (1 - cos t ^ 2) with (Rsqr (sin t)) by (rewrite sin2; unfold Rsqr; ring). apply sqrt_Rsqr. lra. }
  assert (L : locally th (fun t => C * sin t ^ m * LD m (S l) (cos t) = Nlm (S l) m (cos t))).
  { assert (Lp : locally th (fun t => 0 < sin t)).
    { apply (continuous_sin th (fun y => 0 < y)). apply open_gt. exact Hs. }
    apply (filter_imp (fun t => 0 < sin t)); [|exact Lp]. intros t Ht. rewrite Nlm_LD. fold C. now rewrite Su. }
  apply (is_derive_ext_loc _ _ _ _ L).
  assert (E : (INR (S l) * cos th * Nlm (S l) m (cos th) - fLM (INR (S l)) (INR m) * Nlm l m (cos th)) / sin th =
    C * (INR m * sin th ^ (pred m) * cos th) * LD m (S l) (cos th) + C * sin th ^ m * (- sin th * LD (S m) (S l) (cos th))).
  { pose proof (LD_slope m l (cos th)) as S1.
    assert (S2 : 1 - cos th * cos th = sin th * sin th) by (pose proof (sin2_cos2 th) as Q; unfold Rsqr in Q; lra).
    rewrite S2 in S1. rewrite !Nlm_LD, !Su by exact Hs. fold C.
    set (C' := sqrt ((if (m =? 0)%nat then 1 else 2) * (2 * INR l + 1) * INR (fact (l - m)) / INR (fact (l + m)))).
    assert (K : fLM (INR (S l)) (INR m) * C' * LD m l (cos th) = C * (INR l + 1 + INR m) * LD m l (cos th)).
    { destruct (Nat.eq_dec m (S l)) as [->|N]; [rewrite LD_high by lia; ring|]. f_equal. symmetry.
      pose proof (pos_INR l). pose proof (pos_INR m). assert (M1 : INR m <= INR l) by (apply le_INR; lia).
      unfold fLM. pose proof (INR_fact_lt_0 (l - m)). pose proof (INR_fact_lt_0 (l + m)).
      assert (Ci : forall a b c, 0 < b -> 0 < c -> 0 <= (if (m =? 0)%nat then 1 else 2) * (2 * INR a + 1) * b / c).
      { intros a b c Hb Hc. pose proof (pos_INR a). left. apply Rdiv_lt_0_compat; [|exact Hc]. apply Rmult_lt_0_compat; [|exact Hb].
        apply Rmult_lt_0_compat; [destruct (m =? 0)%nat; lra|lra]. }
      apply sqrt_mul_sq.
      - apply Rmult_le_pos; [apply sqrt_pos|lra].
      - rewrite S_INR. apply Rmult_le_pos; [apply Rmult_le_pos; [nra|lra]|]. left. apply Rinv_0_lt_compat. lra.
      - apply sqrt_pos.
      - replace (C * (INR l + 1 + INR m) * (C * (INR l + 1 + INR m))) with (C * C * (INR l + 1 + INR m) ^ 2) by ring.
        unfold C, C'. rewrite !sqrt_sqrt by (apply Ci; apply INR_fact_lt_0).
        replace (S l - m)%nat with (S (l - m)) by lia. replace (S l + m)%nat with (S (l + m)) by lia.
        rewrite !INR_fact_S, S_INR, plus_INR, minus_INR by lia.
        set (e := if (m =? 0)%nat then 1 else 2). field. repeat split; lra. }
    replace (fLM (INR (S l)) (INR m) * (C' * sin th ^ m * LD m l (cos th)))
      with (fLM (INR (S l)) (INR m) * C' * LD m l (cos th) * sin th ^ m) by ring. rewrite K, S_INR.
    assert (S3 : (INR l + 1 + INR m) * LD m l (cos th) = sin th * sin th * LD (S m) (S l) (cos th) - INR m * cos th * LD m (S l) (cos th) +
       (INR l + 1) * cos th * LD m (S l) (cos th)) by lra.
    replace (C * (INR l + 1 + INR m) * LD m l (cos th)) with (C * ((INR l + 1 + INR m) * LD m l (cos th))) by ring. rewrite S3.
    destruct m as [|m]; [cbn [pow INR Init.Nat.pred]; field; lra|]. cbn [pow Init.Nat.pred]. field. lra. }
  rewrite E. clear E L.
  auto_derive; [repeat split; eexists; apply LD_derive|]. rewrite DLD. ring.
Qed.
