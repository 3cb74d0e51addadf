(** Mathematical Legendre polynomials, independent of the code: Bonnet's
    recursion, derivatives and the classical identities. *)
From Coq Require Import Reals Lra.
From Coquelicot Require Import Coquelicot.
From Verif Require Import Base.
Close Scope Z_scope.
Open Scope R_scope.

(** P_0 = 1, P_1 = x, (n+2) P_(n+2) = (2n+3) x P_(n+1) - (n+1) P_n *)
Fixpoint legP (n : nat) (x : R) {struct n} : R :=
  match n with
  | O => 1
  | S n' => match n' with
            | O => x
            | S k => ((2 * INR k + 3) * x * legP n' x - (INR k + 1) * legP k x) / (INR k + 2)
            end
  end.
(** derivative *)
Fixpoint legD (n : nat) (x : R) {struct n} : R :=
  match n with
  | O => 0
  | S n' => match n' with
            | O => 1
            | S k => ((2 * INR k + 3) * (legP n' x + x * legD n' x) - (INR k + 1) * legD k x) / (INR k + 2)
            end
  end.

Lemma legP_SS k x : legP (S (S k)) x = ((2 * INR k + 3) * x * legP (S k) x - (INR k + 1) * legP k x) / (INR k + 2).
Proof. reflexivity. Qed.
Lemma legD_SS k x : legD (S (S k)) x = ((2 * INR k + 3) * (legP (S k) x + x * legD (S k) x) - (INR k + 1) * legD k x) / (INR k + 2).
Proof. reflexivity. Qed.

Lemma two_step (Q : nat -> Prop) : Q 0%nat -> Q 1%nat -> (forall k, Q k -> Q (S k) -> Q (S (S k))) -> forall n, Q n.
Proof.
  intros H0 H1 HS n. assert (K : Q n /\ Q (S n)); [|apply K].
  induction n as [|n [IH1 IH2]]; split; auto.
Qed.

Lemma legP_derive n : forall x, is_derive (legP n) x (legD n x).
Proof.
  induction n as [| |k IH1 IH2] using two_step; intros x.
  - cbn. apply (is_derive_const (V := R_NormedModule) 1).
  - cbn. apply (is_derive_id (K := R_AbsRing)).
  - apply (is_derive_ext (fun x => (2 * INR k + 3) / (INR k + 2) * (x * legP (S k) x) + - (INR k + 1) / (INR k + 2) * legP k x)).
    { intros t. match goal with |- ?a = ?b => change (@eq R a b) end. rewrite legP_SS. pose proof (pos_INR k). field. lra. }
    rewrite legD_SS. pose proof (pos_INR k).
    replace (((2 * INR k + 3) * (legP (S k) x + x * legD (S k) x) - (INR k + 1) * legD k x) / (INR k + 2))
      with ((2 * INR k + 3) / (INR k + 2) * (1 * legP (S k) x + x * legD (S k) x) + - (INR k + 1) / (INR k + 2) * legD k x) by (field; lra).
    apply (is_derive_plus (V := R_NormedModule)).
    + apply (is_derive_scal (fun t => t * legP (S k) t) x). apply (is_derive_mult (K := R_AbsRing) (fun t => t) (legP (S k))).
      * apply (is_derive_id (K := R_AbsRing)).
      * apply IH2.
      * intros; apply Rmult_comm.
    + apply (is_derive_scal (legP k) x). apply IH1.
Qed.

Lemma legP_cont n x : continuous (legP n) x.
Proof. apply (ex_derive_continuous (legP n)). eexists. apply legP_derive. Qed.

(** the classical derivative identities *)
Lemma leg_identities n x :
  x * legD (S n) x - legD n x = (INR n + 1) * legP (S n) x /\
  legD (S (S n)) x - x * legD (S n) x = (INR n + 2) * legP (S n) x /\
  (1 - x * x) * legD (S n) x = (INR n + 1) * (legP n x - x * legP (S n) x).
Proof.
  induction n as [|n (A & B & C)].
  - cbn [legP legD INR]. repeat split; field.
  - assert (Hn : 0 <= INR n) by apply pos_INR.
    assert (A' : x * legD (S (S n)) x - legD (S n) x = (INR (S n) + 1) * legP (S (S n)) x).
    { rewrite S_INR. replace (legD (S (S n)) x) with (x * legD (S n) x + (INR n + 2) * legP (S n) x) by lra.
      rewrite legP_SS. replace ((INR n + 1 + 1) * (((2 * INR n + 3) * x * legP (S n) x - (INR n + 1) * legP n x) / (INR n + 2)))
        with ((2 * INR n + 3) * x * legP (S n) x - (INR n + 1) * legP n x) by (field; lra).
      nra. }
    split; [exact A'|]. split.
    + rewrite legD_SS. rewrite S_INR in *.
      replace (legD (S n) x) with (x * legD (S (S n)) x - (INR n + 1 + 1) * legP (S (S n)) x) by lra.
      field. lra.
    + rewrite S_INR. replace (legD (S (S n)) x) with (x * legD (S n) x + (INR n + 2) * legP (S n) x) by lra.
      replace ((1 - x * x) * (x * legD (S n) x + (INR n + 2) * legP (S n) x))
        with (x * ((1 - x * x) * legD (S n) x) + (1 - x * x) * ((INR n + 2) * legP (S n) x)) by ring.
      rewrite C. rewrite legP_SS. field. lra.
Qed.

(** P'_(n+2) - P'_n = (2n+3) P_(n+1) *)
Lemma leg_deriv_diff n x : legD (S (S n)) x - legD n x = (2 * INR n + 3) * legP (S n) x.
Proof. destruct (leg_identities n x) as (A & B & _). lra. Qed.

Lemma legP_1 n : legP n 1 = 1.
Proof.
  induction n as [| |k IH1 IH2] using two_step; [reflexivity|reflexivity|].
  rewrite legP_SS, IH1, IH2. pose proof (pos_INR k). field. lra.
Qed.
Lemma legP_m1 n : legP n (-1) = (-1) ^ n.
Proof.
  induction n as [| |k IH1 IH2] using two_step; [cbn; ring|cbn; ring|].
  rewrite legP_SS, IH1, IH2. pose proof (pos_INR k). cbn [pow]. field. lra.
Qed.
(** parity *)
Lemma legP_opp n x : legP n (- x) = (-1) ^ n * legP n x.
Proof.
  induction n as [| |k IH1 IH2] using two_step; [cbn; ring|cbn; ring|].
  rewrite !legP_SS, IH1, IH2. pose proof (pos_INR k). cbn [pow]. field. lra.
Qed.
