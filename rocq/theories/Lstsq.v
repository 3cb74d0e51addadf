(** numpy.linalg.lstsq / scipy.linalg.lstsq for matrices of any rank: the least squares solution of least norm, in exact real arithmetic,
    with its contract proved. [A j i] is column j, row i (see LinAlg.v). *)
From Coq Require Import Reals Lra Lia List.
From Verif Require Import Base DestripeModel DestripeProofs LinAlg.
Close Scope Z_scope.
Open Scope R_scope.

Definition rowsof (A : nat -> nat -> R) : nat -> nat -> R := fun i j => A j i.
(** a least squares solution projected onto the row space *)
Definition lstsq (p n : nat) (A : nat -> nat -> R) (d : nat -> R) : nat -> R := comb n (rowsof A) (lsq n p (rowsof A) (lsq p n A d)).
(** contract: residual orthogonal to the columns, solution in the row space *)
Definition is_lstsq (p n : nat) (A : nat -> nat -> R) (d x : nat -> R) : Prop :=
  (forall j, (j < p)%nat -> dot n (A j) (fun i => d i - comb p A x i) = 0) /\
  exists y, forall j, (j < p)%nat -> x j = comb n (rowsof A) y j.

Lemma comb_dot p A b i : comb p A b i = dot p b (rowsof A i).
Proof. reflexivity. Qed.
Lemma lstsq_ok p n A d : is_lstsq p n A d (lstsq p n A d).
Proof.
  split; [|exists (lsq n p (rowsof A) (lsq p n A d)); reflexivity]. intros j L.
  rewrite (dot_ext n _ _ (A j) (fun i => d i - comb p A (lsq p n A d) i)); [apply lsq_normal; exact L|reflexivity|].
  intros i Li. f_equal. pose proof (lsq_normal n p (rowsof A) (lsq p n A d) i Li) as N. rewrite dot_minus in N.
  rewrite (comb_dot p A (lstsq p n A d)), (comb_dot p A (lsq p n A d)), !(dot_sym p _ (rowsof A i)). unfold lstsq. apply Rminus_diag_uniq in N. symmetry. exact N.
Qed.
Lemma lstsq_uniq p n A d x x' : is_lstsq p n A d x -> is_lstsq p n A d x' -> forall j, (j < p)%nat -> x j = x' j.
Proof.
  intros [N [y Ey]] [N' [y' Ey']] j L.
  assert (F : forall i, (i < n)%nat -> comb p A x i = comb p A x' i) by (apply (normal_fit_unique p n A d); assumption).
  set (z := fun j => x j - x' j). assert (Z : dot p z z = 0).
  { rewrite (dot_ext p z z z (comb n (rowsof A) (fun i => y i - y' i))); [|reflexivity|intros k Lk; unfold z; rewrite comb_sub, Ey, Ey' by exact Lk; reflexivity].
    rewrite dot_comb. rewrite (rsum_ext n _ (fun _ => 0)); [apply rsum_zero|]. intros i Li. rewrite <- comb_dot. unfold z. rewrite comb_sub, F by exact Li. ring. }
  pose proof (dot_self_zero p z Z j L) as Q. unfold z in Q. lra.
Qed.
Theorem lstsq_min p n A d x : is_lstsq p n A d x -> forall z,
  dot n (fun i => d i - comb p A x i) (fun i => d i - comb p A x i) <= dot n (fun i => d i - comb p A z i) (fun i => d i - comb p A z i).
Proof. intros [N _] z. rewrite (normal_min p n A d x N z). pose proof (dot_self_nonneg n (fun i => comb p A x i - comb p A z i)). lra. Qed.
(** every other minimiser is longer *)
Theorem lstsq_short p n A d x : is_lstsq p n A d x -> forall z, (forall j, (j < p)%nat -> dot n (A j) (fun i => d i - comb p A z i) = 0) -> dot p x x <= dot p z z.
Proof.
  intros [N [y Ey]] z Nz. assert (F : forall i, (i < n)%nat -> comb p A x i = comb p A z i) by (apply (normal_fit_unique p n A d); assumption).
  set (w := fun j => z j - x j). assert (O : dot p x w = 0).
  { rewrite dot_sym. rewrite (dot_ext p w x w (comb n (rowsof A) y)) by (intros; auto). rewrite dot_comb. rewrite (rsum_ext n _ (fun _ => 0)); [apply rsum_zero|].
    intros i Li. rewrite <- comb_dot. unfold w. rewrite comb_sub, F by exact Li. ring. }
  rewrite (dot_ext p z z (fun j => x j + w j) (fun j => x j + w j)) by (intros; unfold w; ring). rewrite dot_plus, (dot_sym p (fun j => x j + w j) x), (dot_sym p (fun j => x j + w j) w), !dot_plus, (dot_sym p w x), O.
  pose proof (dot_self_nonneg p w). lra.
Qed.
Lemma is_lstsq_lin p n A d e x y a c : is_lstsq p n A d x -> is_lstsq p n A e y -> is_lstsq p n A (fun i => a * d i + c * e i) (fun j => a * x j + c * y j).
Proof.
  intros [N [u U]] [M [v V]]. split.
  - intros j L. rewrite (dot_ext n _ _ (A j) (fun i => a * (d i - comb p A x i) + c * (e i - comb p A y i))); [|reflexivity|].
    + rewrite dot_plus, !dot_scal, N, M by exact L. ring.
    + intros i Li. assert (X : comb p A (fun j => a * x j + c * y j) i = a * comb p A x i + c * comb p A y i).
      { unfold comb. rewrite <- !rsum_scal, <- rsum_plus. apply rsum_ext; intros; ring. } rewrite X. ring.
  - exists (fun i => a * u i + c * v i). intros j L. rewrite U, V by exact L. unfold comb. rewrite <- !rsum_scal, <- rsum_plus. apply rsum_ext; intros; ring.
Qed.
Lemma is_lstsq_ext p n A d d' x x' : (forall i, (i < n)%nat -> d i = d' i) -> (forall j, (j < p)%nat -> x j = x' j) -> is_lstsq p n A d x -> is_lstsq p n A d' x'.
Proof.
  intros Hd Hx [N [y Y]]. split.
  - intros j L. rewrite <- (N j L). apply dot_ext; [reflexivity|]. intros i Li. rewrite Hd by exact Li. f_equal. apply comb_ext; [reflexivity|]. intros; symmetry; auto.
  - exists y. intros j L. rewrite <- Hx by exact L. auto.
Qed.
Lemma is_lstsq_zero p n A : is_lstsq p n A (fun _ => 0) (fun _ => 0).
Proof.
  split.
  - intros j L. rewrite (dot_ext n _ _ (A j) (fun _ => 0)); [apply dot_zero|reflexivity|]. intros i Li. unfold comb. rewrite (rsum_ext p _ (fun _ => 0)) by (intros; ring). rewrite rsum_zero. ring.
  - exists (fun _ => 0). intros j L. unfold comb. rewrite (rsum_ext n _ (fun _ => 0)) by (intros; ring). rewrite rsum_zero. ring.
Qed.
Lemma is_lstsq_sum p n A (c : nat -> R) (d x : nat -> nat -> R) N : (forall q, (q < N)%nat -> is_lstsq p n A (d q) (x q)) ->
  is_lstsq p n A (fun i => rsum N (fun q => c q * d q i)) (fun j => rsum N (fun q => c q * x q j)).
Proof.
  induction N as [|N IH]; intros H; cbn [rsum].
  - apply is_lstsq_zero.
  - apply (is_lstsq_ext p n A (fun i => 1 * rsum N (fun q => c q * d q i) + c N * d N i) _ (fun j => 1 * rsum N (fun q => c q * x q j) + c N * x N j)); [intros; ring|intros; ring|].
    apply is_lstsq_lin; [apply IH; auto|apply H; lia].
Qed.
(** the responses to the unit data, weighted with the data, add up to the solution *)
Theorem lstsq_units p n A (f Y : nat -> R) : is_lstsq p n A (fun i => f i * Y i) (fun j => rsum n (fun q => Y q * lstsq p n A (fun i => if (i =? q)%nat then f q else 0) j)).
Proof.
  eapply (is_lstsq_ext p n A (fun i => rsum n (fun q => Y q * (if (i =? q)%nat then f q else 0)))); [|reflexivity|apply (is_lstsq_sum p n A Y (fun q i => if (i =? q)%nat then f q else 0)); intros; apply lstsq_ok].
  intros i Li. rewrite (rsum_ext n _ (fun q => delta q i * (Y q * f q))).
  - rewrite rsum_delta by exact Li. ring.
  - intros q Lq. unfold delta. rewrite (Nat.eqb_sym q i). destruct (i =? q)%nat; ring.
Qed.
Lemma is_lstsq_exact p n A d x z : independent p n A -> is_lstsq p n A d x -> (forall i, (i < n)%nat -> d i = comb p A z i) -> forall j, (j < p)%nat -> x j = z j.
Proof.
  intros Ind [N _] E j L. apply (normal_unique p n A d); auto.
  intros k Lk. rewrite (dot_ext n _ _ (A k) (fun _ => 0)); [apply dot_zero|auto|]. intros; rewrite E by auto; ring.
Qed.
