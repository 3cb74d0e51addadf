(** Models of numpy.linalg.lstsq and numpy.linalg.inv in exact real arithmetic,
    for matrices of any size, with their contracts proved.  A matrix with p
    columns and n rows is a function: [A j i] is column j, row i. *)
From Coq Require Import Reals Lra Lia List.
From Verif Require Import Base DestripeModel DestripeProofs.
Close Scope Z_scope.
Open Scope R_scope.

Definition dot (n : nat) (u v : nat -> R) : R := rsum n (fun i => u i * v i).
(** combination of the columns 0..p-1 *)
Definition comb (p : nat) (A : nat -> nat -> R) (b : nat -> R) (i : nat) : R := rsum p (fun j => b j * A j i).

(** numpy.linalg.lstsq: a vector with least squared residual (here by
    orthogonalisation).  numpy returns the minimiser of least norm; when the columns are
    independent the minimiser is unique ([lsq_unique]), and every caller modelled here
    goes on to invert the normal matrix, which raises otherwise. *)
Fixpoint lsq (p n : nat) (A : nat -> nat -> R) (d : nat -> R) : nat -> R :=
  match p with
  | O => fun _ => 0
  | S p' =>
    let c := A 0%nat in
    let proj v := fun i => v i - dot n c v / dot n c c * c i in
    let b := lsq p' n (fun j => proj (A (S j))) (proj d) in
    fun j => match j with
             | O => dot n c (fun i => d i - comb p' (fun j => A (S j)) b i) / dot n c c
             | S j' => b j'
             end
  end.

Definition delta (i j : nat) : R := if Nat.eqb i j then 1 else 0.
(** product of p x p matrices, M row-column indexed *)
Definition mmul (p : nat) (M B : nat -> nat -> R) (i j : nat) : R := rsum p (fun k => M i k * B k j).
Definition is_id (p : nat) (M : nat -> nat -> R) : Prop := forall i j, (i < p)%nat -> (j < p)%nat -> M i j = delta i j.
Definition is_idb (p : nat) (M : nat -> nat -> R) : bool :=
  forallb (fun i => forallb (fun j => if Req_EM_T (M i j) (delta i j) then true else false) (seq 0 p)) (seq 0 p).
Definition inv_mat (p : nat) (M : nat -> nat -> R) : nat -> nat -> R := fun i j => lsq p p (fun k i => M i k) (delta j) i.
(** numpy.linalg.inv: the inverse, or LinAlgError when there is none *)
Definition inv (p : nat) (M : nat -> nat -> R) : res (nat -> nat -> R) :=
  if is_idb p (mmul p M (inv_mat p M)) then Ok (inv_mat p M) else Err OtherExn.

(** ** sums *)
Lemma dot_ext n u v u' v' : (forall i, (i < n)%nat -> u i = u' i) -> (forall i, (i < n)%nat -> v i = v' i) -> dot n u v = dot n u' v'.
Proof. intros; apply rsum_ext; intros; rewrite H, H0; auto. Qed.
Lemma dot_sym n u v : dot n u v = dot n v u.
Proof. apply rsum_ext; intros; ring. Qed.
Lemma dot_plus n u v w : dot n u (fun i => v i + w i) = dot n u v + dot n u w.
Proof. unfold dot; rewrite <- rsum_plus; apply rsum_ext; intros; ring. Qed.
Lemma dot_scal n u c v : dot n u (fun i => c * v i) = c * dot n u v.
Proof. unfold dot; rewrite <- rsum_scal; apply rsum_ext; intros; ring. Qed.
Lemma dot_minus n u v w : dot n u (fun i => v i - w i) = dot n u v - dot n u w.
Proof. unfold dot. replace (_ - _) with (rsum n (fun i => u i * v i) + (-1) * rsum n (fun i => u i * w i)) by ring.
  rewrite <- rsum_scal, <- rsum_plus; apply rsum_ext; intros; ring. Qed.
Lemma dot_zero n u : dot n u (fun _ => 0) = 0.
Proof. unfold dot; rewrite (rsum_ext n _ (fun _ => 0)) by (intros; ring); apply rsum_zero. Qed.
Lemma dot_self_nonneg n u : 0 <= dot n u u.
Proof. apply rsum_nonneg; intros; nra. Qed.
Lemma rsum_pos_term n f k : (forall i, (i < n)%nat -> 0 <= f i) -> (k < n)%nat -> f k <= rsum n f.
Proof.
  induction n; intros H L; [lia|]. cbn. destruct (Nat.eq_dec k n) as [->|N].
  - pose proof (rsum_nonneg n f ltac:(intros; apply H; lia)); lra.
  - pose proof (IHn ltac:(intros; apply H; lia) ltac:(lia)). pose proof (H n ltac:(lia)); lra.
Qed.
Lemma dot_self_zero n u : dot n u u = 0 -> forall i, (i < n)%nat -> u i = 0.
Proof.
  intros E i L. assert (P : u i * u i <= dot n u u) by (apply (rsum_pos_term n (fun i => u i * u i)); auto; intros; nra). nra.
Qed.
Lemma rsum_swap n m f : rsum n (fun i => rsum m (fun j => f i j)) = rsum m (fun j => rsum n (fun i => f i j)).
Proof.
  induction n; cbn. { symmetry; apply rsum_zero. }
  rewrite IHn, <- rsum_plus. reflexivity.
Qed.
Lemma rsum_delta n k f : (k < n)%nat -> rsum n (fun i => delta i k * f i) = f k.
Proof.
  induction n; intros L; [lia|]. cbn. unfold delta at 2. destruct (Nat.eqb_spec n k) as [->|N].
  - rewrite (rsum_ext k _ (fun _ => 0)). { rewrite rsum_zero; ring. }
    intros i Hi. unfold delta. destruct (Nat.eqb_spec i k); [lia|ring].
  - rewrite IHn by lia. ring.
Qed.
Lemma delta_sym i j : delta i j = delta j i.
Proof. unfold delta. rewrite Nat.eqb_sym. reflexivity. Qed.
Lemma dot_comb n p A b u : dot n u (comb p A b) = rsum p (fun j => b j * dot n u (A j)).
Proof.
  unfold dot, comb. rewrite (rsum_ext n _ (fun i => rsum p (fun j => u i * (b j * A j i)))).
  2:{ intros; rewrite <- rsum_scal; apply rsum_ext; intros; ring. }
  rewrite rsum_swap. apply rsum_ext; intros. rewrite <- rsum_scal. apply rsum_ext; intros; ring.
Qed.
Lemma comb_ext p A A' b b' i : (forall j, (j < p)%nat -> A j i = A' j i) -> (forall j, (j < p)%nat -> b j = b' j) -> comb p A b i = comb p A' b' i.
Proof. intros; apply rsum_ext; intros; rewrite H, H0; auto. Qed.
Lemma comb_head p A b i : comb (S p) A b i = b 0%nat * A 0%nat i + comb p (fun j => A (S j)) (fun j => b (S j)) i.
Proof. unfold comb. apply rsum_head. Qed.
Lemma comb_sub p A b b' i : comb p A (fun j => b j - b' j) i = comb p A b i - comb p A b' i.
Proof.
  unfold comb. replace (_ - _) with (rsum p (fun j => b j * A j i) + (-1) * rsum p (fun j => b' j * A j i)) by ring.
  rewrite <- rsum_scal, <- rsum_plus. apply rsum_ext; intros; ring.
Qed.

(** ** lstsq solves the normal equations *)
Theorem lsq_normal p : forall n A d j, (j < p)%nat ->
  dot n (A j) (fun i => d i - comb p A (lsq p n A d) i) = 0.
Proof.
  induction p; intros n A d j L; [lia|].
  set (c := A 0%nat). set (proj := fun v : nat -> R => fun i => v i - dot n c v / dot n c c * c i).
  set (b := lsq p n (fun j => proj (A (S j))) (proj d)).
  set (x := fun i => d i - comb p (fun j => A (S j)) b i).
  set (b0 := dot n c x / dot n c c).
  assert (E : forall i, d i - comb (S p) A (lsq (S p) n A d) i = x i - b0 * c i).
  { intros i. rewrite comb_head.
    change (lsq (S p) n A d 0%nat) with b0.
    change (fun j => lsq (S p) n A d (S j)) with b. unfold x. fold c. ring. }
  assert (Ec : dot n c (fun i => x i - b0 * c i) = 0).
  { rewrite dot_minus, dot_scal. unfold b0. destruct (Req_EM_T (dot n c c) 0) as [Z|NZ].
    - rewrite Z. rewrite (dot_ext n c x (fun _ => 0) x); auto.
      + rewrite dot_sym, dot_zero. ring.
      + apply dot_self_zero; exact Z.
    - field; exact NZ. }
  assert (Er : forall i, proj d i - comb p (fun j => proj (A (S j))) b i = x i - b0 * c i).
  { intros i. unfold proj at 1. unfold x. unfold comb at 1.
    rewrite (rsum_ext p _ (fun j => b j * A (S j) i + (- c i / dot n c c) * (b j * dot n c (A (S j)))))
      by (intros; unfold proj; unfold Rdiv; ring).
    rewrite rsum_plus, rsum_scal. fold (comb p (fun j => A (S j)) b i).
    assert (B0 : dot n c x = dot n c d - rsum p (fun j => b j * dot n c (A (S j)))).
    { unfold x. rewrite dot_minus. rewrite (dot_comb n p (fun j => A (S j)) b c). reflexivity. }
    unfold b0. rewrite B0. unfold Rdiv; ring. }
  rewrite (dot_ext n (A j) _ (A j) (fun i => x i - b0 * c i)); auto.
  destruct j as [|j]; [exact Ec|].
  specialize (IHp n (fun j => proj (A (S j))) (proj d) j ltac:(lia)). cbv beta in IHp.
  fold b in IHp.
  rewrite (dot_ext n (proj (A (S j))) _ (proj (A (S j))) (fun i => x i - b0 * c i) ltac:(auto) ltac:(intros; apply Er)) in IHp.
  rewrite dot_sym in IHp. unfold proj in IHp. rewrite dot_minus, dot_scal in IHp.
  rewrite (dot_sym n (fun i => x i - b0 * c i) c), Ec in IHp. rewrite dot_sym. lra.
Qed.

(** the normal equations characterise least squares *)
Lemma normal_min p n A d b : (forall j, (j < p)%nat -> dot n (A j) (fun i => d i - comb p A b i) = 0) ->
  forall x, dot n (fun i => d i - comb p A x i) (fun i => d i - comb p A x i) =
            dot n (fun i => d i - comb p A b i) (fun i => d i - comb p A b i)
            + dot n (fun i => comb p A b i - comb p A x i) (fun i => comb p A b i - comb p A x i).
Proof.
  intros H x.
  set (r := fun i => d i - comb p A b i). set (w := fun i => comb p A b i - comb p A x i).
  assert (O : dot n r w = 0).
  { rewrite (dot_ext n r w r (comb p A (fun j => b j - x j))); auto.
    2:{ intros; unfold w; rewrite comb_sub; reflexivity. }
    rewrite dot_comb. rewrite (rsum_ext p _ (fun _ => 0)); [apply rsum_zero|].
    intros j L. rewrite dot_sym. unfold r. rewrite H by auto. ring. }
  rewrite (dot_ext n _ _ (fun i => r i + w i) (fun i => r i + w i)).
  2,3: intros; unfold r, w; ring.
  rewrite dot_plus, (dot_sym n _ r), (dot_sym n _ w), !dot_plus, (dot_sym n w r), O. ring.
Qed.
Theorem lsq_min p n A d x : dot n (fun i => d i - comb p A (lsq p n A d) i) (fun i => d i - comb p A (lsq p n A d) i)
  <= dot n (fun i => d i - comb p A x i) (fun i => d i - comb p A x i).
Proof.
  rewrite (normal_min p n A d (lsq p n A d) ltac:(intros; apply lsq_normal; auto) x).
  pose proof (dot_self_nonneg n (fun i => comb p A (lsq p n A d) i - comb p A x i)). lra.
Qed.

(** independent columns *)
Definition independent (p n : nat) (A : nat -> nat -> R) : Prop :=
  forall x, (forall i, (i < n)%nat -> comb p A x i = 0) -> forall j, (j < p)%nat -> x j = 0.
Lemma normal_fit_unique p n A d b b' :
  (forall j, (j < p)%nat -> dot n (A j) (fun i => d i - comb p A b i) = 0) ->
  (forall j, (j < p)%nat -> dot n (A j) (fun i => d i - comb p A b' i) = 0) ->
  forall i, (i < n)%nat -> comb p A b i = comb p A b' i.
Proof.
  intros H H' i L.
  pose proof (normal_min p n A d b H b') as E1. pose proof (normal_min p n A d b' H' b) as E2.
  pose proof (dot_self_nonneg n (fun i => comb p A b' i - comb p A b i)).
  pose proof (dot_self_nonneg n (fun i => comb p A b i - comb p A b' i)).
  assert (Z : dot n (fun i => comb p A b i - comb p A b' i) (fun i => comb p A b i - comb p A b' i) = 0) by lra.
  pose proof (dot_self_zero n _ Z i L) as Q. cbv beta in Q. lra.
Qed.
Lemma normal_unique p n A d b b' : independent p n A ->
  (forall j, (j < p)%nat -> dot n (A j) (fun i => d i - comb p A b i) = 0) ->
  (forall j, (j < p)%nat -> dot n (A j) (fun i => d i - comb p A b' i) = 0) ->
  forall j, (j < p)%nat -> b j = b' j.
Proof.
  intros I H H' j L.
  assert (E : b j - b' j = 0); [|lra].
  apply (I (fun j => b j - b' j)); auto.
  intros i Li. rewrite comb_sub. rewrite (normal_fit_unique p n A d b b' H H' i Li). ring.
Qed.
(** data that are exactly a combination of the columns are recovered *)
Theorem lsq_exact p n A d x : independent p n A -> (forall i, (i < n)%nat -> d i = comb p A x i) ->
  forall j, (j < p)%nat -> lsq p n A d j = x j.
Proof.
  intros I E j L. apply (normal_unique p n A d); auto.
  - intros; apply lsq_normal; auto.
  - intros k Lk. rewrite (dot_ext n _ _ (A k) (fun _ => 0)); [apply dot_zero|auto|].
    intros; rewrite E by auto; ring.
Qed.
Lemma lsq_zero_residual p n A d x : (forall i, (i < n)%nat -> d i = comb p A x i) ->
  forall i, (i < n)%nat -> comb p A (lsq p n A d) i = d i.
Proof.
  intros E i L.
  rewrite E by auto. apply (normal_fit_unique p n A d); auto.
  - intros; apply lsq_normal; auto.
  - intros k Lk. rewrite (dot_ext n _ _ (A k) (fun _ => 0)); [apply dot_zero|auto|].
    intros; rewrite E by auto; ring.
Qed.
Lemma lsq_linear p n A d e a c : independent p n A -> forall j, (j < p)%nat ->
  lsq p n A (fun i => a * d i + c * e i) j = a * lsq p n A d j + c * lsq p n A e j.
Proof.
  intros I j L. apply (normal_unique p n A (fun i => a * d i + c * e i)
    (lsq p n A (fun i => a * d i + c * e i)) (fun j => a * lsq p n A d j + c * lsq p n A e j)); auto.
  - intros; apply lsq_normal; auto.
  - intros k Lk.
    pose proof (lsq_normal p n A d k Lk) as H1. pose proof (lsq_normal p n A e k Lk) as H2.
    rewrite (dot_ext n _ _ (A k) (fun i => a * (d i - comb p A (lsq p n A d) i) + c * (e i - comb p A (lsq p n A e) i))); auto.
    { rewrite dot_plus, !dot_scal, H1, H2. ring. }
    intros i Li.
    assert (X : comb p A (fun j => a * lsq p n A d j + c * lsq p n A e j) i = a * comb p A (lsq p n A d) i + c * comb p A (lsq p n A e) i).
    { unfold comb. rewrite <- !rsum_scal, <- rsum_plus. apply rsum_ext; intros; ring. }
    rewrite X. ring.
Qed.
Lemma lsq_ext p : forall n A A' d d', (forall j i, (j < p)%nat -> (i < n)%nat -> A j i = A' j i) -> (forall i, (i < n)%nat -> d i = d' i) ->
  forall j, (j < p)%nat -> lsq p n A d j = lsq p n A' d' j.
Proof.
  induction p; intros n A A' d d' HA Hd j L; [lia|].
  set (c := A 0%nat). set (c' := A' 0%nat).
  assert (Ec : forall i, (i < n)%nat -> c i = c' i) by (intros; apply HA; [lia|auto]).
  assert (Ecc : dot n c c = dot n c' c') by (apply dot_ext; auto).
  assert (EB : forall j, (j < p)%nat ->
     lsq p n (fun j i => A (S j) i - dot n c (A (S j)) / dot n c c * c i) (fun i => d i - dot n c d / dot n c c * c i) j =
     lsq p n (fun j i => A' (S j) i - dot n c' (A' (S j)) / dot n c' c' * c' i) (fun i => d' i - dot n c' d' / dot n c' c' * c' i) j).
  { apply IHp.
    - intros k i Lk Li. rewrite Ecc, Ec, HA by (auto; lia). f_equal. f_equal. f_equal. apply dot_ext; auto. intros; apply HA; auto; lia.
    - intros i Li. rewrite Ecc, Ec, Hd by auto. f_equal. f_equal. f_equal. apply dot_ext; auto. }
  destruct j as [|j]; cbn [lsq]; fold c c'.
  - f_equal; [|rewrite Ecc; reflexivity]. apply dot_ext; auto. intros i Li. rewrite Hd by auto. f_equal.
    apply comb_ext; [intros; apply HA; auto; lia|exact EB].
  - apply EB; lia.
Qed.

(** ** inv is the inverse *)
Lemma is_idb_ok p M : is_idb p M = true <-> is_id p M.
Proof.
  unfold is_idb, is_id. rewrite forallb_forall. split.
  - intros H i j Li Lj. specialize (H i ltac:(apply in_seq; lia)). rewrite forallb_forall in H.
    specialize (H j ltac:(apply in_seq; lia)). destruct (Req_EM_T (M i j) (delta i j)); congruence.
  - intros H i Hi. apply in_seq in Hi. rewrite forallb_forall. intros j Hj. apply in_seq in Hj.
    rewrite H by lia. destruct (Req_EM_T (delta i j) (delta i j)); congruence.
Qed.
Theorem inv_ok p M B : inv p M = Ok B -> is_id p (mmul p M B).
Proof.
  unfold inv. destruct (is_idb p (mmul p M (inv_mat p M))) eqn:E; [|discriminate].
  intros H. assert (B = inv_mat p M) by congruence. subst B. apply is_idb_ok; exact E.
Qed.
Theorem inv_complete p M : (exists B, is_id p (mmul p M B)) <-> exists B, inv p M = Ok B.
Proof.
  split.
  - intros [B HB]. exists (inv_mat p M). unfold inv.
    replace (is_idb p (mmul p M (inv_mat p M))) with true; auto. symmetry. apply is_idb_ok.
    intros i j Li Lj. unfold mmul, inv_mat.
    pose proof (lsq_zero_residual p p (fun k i => M i k) (delta j) (fun k => B k j)) as Z.
    rewrite (delta_sym i j). rewrite <- (Z ltac:(intros i' L'; unfold comb; rewrite delta_sym, <- (HB i' j) by auto;
      unfold mmul; apply rsum_ext; intros; ring) i Li).
    unfold comb. apply rsum_ext; intros; ring.
  - intros [B HB]. exists B. apply inv_ok; exact HB.
Qed.
Theorem inv_singular p M : (forall B, ~ is_id p (mmul p M B)) <-> inv p M = Err OtherExn.
Proof.
  split.
  - intros H. destruct (inv p M) as [B|e] eqn:E.
    + elim (H B). apply inv_ok; exact E.
    + unfold inv in E. destruct (is_idb _ _); congruence.
  - intros E B HB. destruct (proj1 (inv_complete p M) (ex_intro _ B HB)). congruence.
Qed.
(** for a symmetric matrix the right inverse is symmetric and a left inverse *)
Lemma mmul_assoc p M N P i j : mmul p (mmul p M N) P i j = mmul p M (mmul p N P) i j.
Proof.
  unfold mmul. rewrite (rsum_ext p _ (fun k => rsum p (fun l => M i l * N l k * P k j))).
  2:{ intros; rewrite Rmult_comm, <- rsum_scal. apply rsum_ext; intros; ring. }
  rewrite rsum_swap. apply rsum_ext; intros. rewrite <- rsum_scal. apply rsum_ext; intros; ring.
Qed.
Lemma mmul_id_l p M N i j : is_id p M -> (i < p)%nat -> mmul p M N i j = N i j.
Proof.
  intros H L. unfold mmul. rewrite (rsum_ext p _ (fun k => delta k i * N k j)).
  - apply (rsum_delta p i (fun k => N k j)); auto.
  - intros k Lk. rewrite H by auto. rewrite delta_sym. reflexivity.
Qed.
Lemma mmul_id_r p M N i j : is_id p N -> (j < p)%nat -> mmul p M N i j = M i j.
Proof.
  intros H L. unfold mmul. rewrite (rsum_ext p _ (fun k => delta k j * M i k)).
  - apply (rsum_delta p j (fun k => M i k)); auto.
  - intros k Lk. rewrite H by auto. ring.
Qed.
Lemma inv_sym p M B : (forall i j, (i < p)%nat -> (j < p)%nat -> M i j = M j i) -> is_id p (mmul p M B) ->
  (forall i j, (i < p)%nat -> (j < p)%nat -> B i j = B j i) /\ is_id p (mmul p B M).
Proof.
  intros HS HB.
  assert (HT : is_id p (mmul p (fun i j => B j i) M)).
  { intros i j Li Lj. rewrite <- delta_sym. rewrite <- (HB j i) by auto. unfold mmul. apply rsum_ext; intros. rewrite (HS j) by auto. ring. }
  assert (E : forall i j, (i < p)%nat -> (j < p)%nat -> B i j = B j i).
  { intros i j Li Lj. rewrite <- (mmul_id_l p _ B i j HT Li). rewrite mmul_assoc.
    rewrite (mmul_id_r p (fun i j => B j i) _ i j HB Lj). reflexivity. }
  split; auto. intros i j Li Lj. rewrite <- (HT i j) by auto. unfold mmul. apply rsum_ext; intros. rewrite (E i) by auto. reflexivity.
Qed.

(** ** normal matrices: invertible iff the columns are independent *)
Definition gram (n : nat) (A : nat -> nat -> R) (j k : nat) : R := dot n (A j) (A k).
Theorem gram_inv p n A : (exists B, inv p (gram n A) = Ok B) <-> independent p n A.
Proof.
  rewrite <- inv_complete. split.
  - intros [B HB] x Hx j Lj.
    destruct (inv_sym p (gram n A) B ltac:(intros; apply dot_sym) HB) as [_ HL].
    assert (G : forall k, (k < p)%nat -> rsum p (fun l => gram n A k l * x l) = 0).
    { intros k Lk. rewrite (rsum_ext p _ (fun l => x l * dot n (A k) (A l))) by (intros; unfold gram; ring).
      rewrite <- dot_comb. rewrite (dot_ext n _ _ (A k) (fun _ => 0)); auto. apply dot_zero. }
    rewrite <- (rsum_delta p j x Lj). rewrite (rsum_ext p _ (fun l => mmul p B (gram n A) j l * x l)).
    2:{ intros l Ll. rewrite HL by auto. rewrite delta_sym. reflexivity. }
    rewrite (rsum_ext p _ (fun l => rsum p (fun k => B j k * (gram n A k l * x l)))).
    2:{ intros l Ll. unfold mmul. rewrite Rmult_comm, <- rsum_scal. apply rsum_ext; intros; ring. }
    rewrite rsum_swap. rewrite (rsum_ext p _ (fun _ => 0)); [apply rsum_zero|].
    intros k Lk. rewrite rsum_scal, G by auto. ring.
  - intros I. exists (inv_mat p (gram n A)). intros i j Li Lj.
    set (r := fun i => delta j i - comb p (fun k i => gram n A i k) (lsq p p (fun k i => gram n A i k) (delta j)) i).
    assert (N : forall k, (k < p)%nat -> dot p (fun i => gram n A i k) r = 0).
    { intros k Lk. apply (lsq_normal p p (fun k i => gram n A i k) (delta j) k Lk). }
    assert (Z : forall k, (k < p)%nat -> r k = 0).
    { apply I. apply dot_self_zero. rewrite dot_comb. rewrite (rsum_ext p _ (fun _ => 0)); [apply rsum_zero|].
      intros k Lk. rewrite dot_sym, dot_comb. specialize (N k Lk). unfold dot at 1, gram in N.
      rewrite (rsum_ext p _ (fun i => r i * dot n (A k) (A i))) in N; [rewrite N; ring|].
      intros l Ll. rewrite (dot_sym n (A l)). ring. }
    unfold mmul, inv_mat. specialize (Z i Li). unfold r, comb in Z. rewrite (delta_sym i j).
    rewrite (rsum_ext p _ (fun k => lsq p p (fun k0 i0 => gram n A i0 k0) (delta j) k * gram n A i k)) by (intros; ring). lra.
Qed.

(** rows of (A^T A)^-1 A^T applied to data give the least squares solution *)
Lemma normeq_lsq p n A B d j : is_id p (mmul p (gram n A) B) -> (j < p)%nat ->
  rsum p (fun k => B j k * dot n (A k) d) = lsq p n A d j.
Proof.
  intros HB Lj. destruct (inv_sym p (gram n A) B ltac:(intros; apply dot_sym) HB) as [HS HL].
  assert (N : forall k, (k < p)%nat -> dot n (A k) d = rsum p (fun l => lsq p n A d l * gram n A k l)).
  { intros k Lk. pose proof (lsq_normal p n A d k Lk) as H. rewrite dot_minus, dot_comb in H. unfold gram. lra. }
  rewrite (rsum_ext p _ (fun k => rsum p (fun l => lsq p n A d l * (B j k * gram n A k l)))).
  2:{ intros k Lk. rewrite N by auto. rewrite <- rsum_scal. apply rsum_ext; intros; ring. }
  rewrite rsum_swap. rewrite (rsum_ext p _ (fun l => delta l j * lsq p n A d l)).
  - apply (rsum_delta p j (lsq p n A d)); auto.
  - intros l Ll. rewrite rsum_scal. fold (mmul p B (gram n A) j l). rewrite HL, delta_sym by auto. ring.
Qed.
(** (A^T A)^-1 A^T A (A^T A)^-1 = (A^T A)^-1, diagonal entries *)
Lemma normeq_sq p n A B j : is_id p (mmul p (gram n A) B) -> (j < p)%nat ->
  rsum n (fun i => (rsum p (fun k => B j k * A k i)) ^ 2) = B j j.
Proof.
  intros HB Lj. destruct (inv_sym p (gram n A) B ltac:(intros; apply dot_sym) HB) as [HS HL].
  rewrite (rsum_ext n _ (fun i => comb p A (B j) i * comb p A (B j) i)).
  2:{ intros. unfold comb. ring. }
  fold (dot n (comb p A (B j)) (comb p A (B j))). rewrite dot_comb.
  rewrite (rsum_ext p _ (fun k => delta k j * B j k)).
  - apply (rsum_delta p j (B j)); auto.
  - intros k Lk. rewrite dot_sym, dot_comb.
    rewrite (rsum_ext p _ (fun l => gram n A k l * B l j)).
    2:{ intros l Ll. rewrite (HS l j) by auto. unfold gram. ring. }
    fold (mmul p (gram n A) B k j). rewrite HB by auto. ring.
Qed.

(** ** powers of distinct points are independent *)
Definition peval (p : nat) (x : nat -> R) (s : R) : R := rsum p (fun j => x j * s ^ j).
Lemma peval_root p : forall x a, peval (S p) x a = 0 -> exists y, (forall s, peval (S p) x s = (s - a) * peval p y s) /\
  (forall j, (j < p)%nat -> y j = x (S j) + (if (S j <? p)%nat then a * y (S j) else 0)).
Proof.
  (* Horner quotient: y_{p-1} = x_p, y_{j} = x_{j+1} + a y_{j+1} *)
  induction p; intros x a H.
  - exists (fun _ => 0). split; [|intros; lia]. intros s. unfold peval in *. cbn in *. lra.
  - (* peval (S (S p)) x s = x 0 + s * peval (S p) (x . S) s *)
    set (q := peval (S p) (fun j => x (S j)) a).
    assert (Hd : forall k z s, peval (S k) z s = z 0%nat + s * peval k (fun j => z (S j)) s).
    { intros k z s. unfold peval. rewrite rsum_head. cbn [pow]. rewrite <- rsum_scal. rewrite Rmult_1_r. f_equal.
      apply rsum_ext; intros; ring. }
    set (x' := fun j => match j with O => x 1%nat - q | _ => x (S j) end).
    assert (X' : forall s, peval (S p) x' s = peval (S p) (fun j => x (S j)) s - q).
    { intros s. rewrite !Hd. unfold x' at 1. unfold Rminus. rewrite Rplus_assoc, (Rplus_comm (- q)), <- Rplus_assoc. reflexivity. }
    destruct (IHp x' a) as [y' [HY1 HY2]]. { rewrite X'. unfold q. ring. }
    exists (fun j => match j with O => q | S j' => y' j' end). split.
    + intros s. rewrite (Hd (S p)). rewrite (Hd p (fun j => match j with O => q | S j' => y' j' end)).
      specialize (HY1 s). rewrite X' in HY1.
      assert (P : peval (S p) (fun j => x (S j)) s = (s - a) * peval p y' s + q) by lra.
      rewrite P. rewrite (Hd (S p)) in H. fold q in H. cbv beta. replace (x 0%nat) with (- (a * q)) by lra.
      change (peval p (fun j => y' j) s) with (peval p y' s). ring.
    + intros j L. destruct j as [|j].
      * assert (E : q = peval (S p) (fun j => x (S j)) a) by reflexivity.
        destruct (Nat.ltb_spec 1 (S p)) as [L1|L1].
        -- cbv iota. (* q = x 1 + a * y' 0 *)
           rewrite E. rewrite Hd. f_equal.
           (* peval p (x.SS) a = y' 0 *)
           clear - HY2 L1. f_equal.
           assert (G : forall k, (k <= p)%nat -> forall m, (m + k = p)%nat -> (1 <= k)%nat -> y' m = rsum k (fun j => x (S (S (m + j))) * a ^ j)).
           { induction k; intros Lk m E Pk; [lia|]. rewrite rsum_head. rewrite (HY2 m) by lia. unfold x'.
             cbn [pow]. rewrite Nat.add_0_r, Rmult_1_r. f_equal.
             destruct (Nat.ltb_spec (S m) p).
             - rewrite (IHk ltac:(lia) (S m) ltac:(lia) ltac:(lia)). rewrite <- rsum_scal. apply rsum_ext; intros.
               replace (S m + i)%nat with (m + S i)%nat by lia. ring.
             - assert (k = 0)%nat by lia. subst k. reflexivity. }
           rewrite (G p ltac:(lia) 0%nat ltac:(lia) ltac:(lia)). unfold peval. apply rsum_ext; intros. reflexivity.
        -- assert (p = 0)%nat by lia. subst p. rewrite E. unfold peval. cbn. ring.
      * rewrite (HY2 j) by lia. unfold x'. reflexivity.
Qed.
Theorem powers_independent p : forall (x : nat -> R) (s : list R), NoDup s -> (p <= length s)%nat ->
  (forall a, In a s -> peval p x a = 0) -> forall j, (j < p)%nat -> x j = 0.
Proof.
  induction p; intros x s ND L H j Lj; [lia|].
  destruct s as [|a s]; [cbn in L; lia|].
  destruct (peval_root p x a (H a (or_introl eq_refl))) as [y [HY1 HY2]].
  inversion ND; subst.
  assert (Y : forall k, (k < p)%nat -> y k = 0).
  { apply (IHp y s); auto. { cbn in L; lia. }
    intros b Hb. specialize (H b (or_intror Hb)). rewrite HY1 in H.
    apply Rmult_integral in H. destruct H; auto. assert (a = b) by lra. subst; contradiction. }
  destruct j as [|j].
  - (* x 0 = 0: evaluate at 0 *)
    specialize (HY1 0). unfold peval in HY1. rewrite rsum_head in HY1.
    rewrite (rsum_ext p (fun j => y j * 0 ^ j) (fun _ => 0)) in HY1 by (intros; rewrite Y by auto; ring).
    rewrite rsum_zero in HY1. cbn [pow] in HY1.
    rewrite (rsum_ext p _ (fun _ => 0)) in HY1 by (intros; ring). rewrite rsum_zero in HY1. lra.
  - pose proof (HY2 j ltac:(lia)) as E. rewrite Y in E by lia.
    destruct (Nat.ltb_spec (S j) p); [rewrite Y in E by lia|]; lra.
Qed.

(** ** at most n independent columns in dimension n *)
Definition skip (k j : nat) : nat := if (j <? k)%nat then j else S j.
Lemma rsum_skip p : forall k f, (k <= p)%nat -> rsum (S p) f = f k + rsum p (fun j => f (skip k j)).
Proof.
  induction p; intros k f L.
  - assert (k = 0)%nat by lia. subst. cbn. ring.
  - destruct (Nat.eq_dec k (S p)) as [->|N].
    + change (rsum (S (S p)) f) with (rsum (S p) f + f (S p)). rewrite Rplus_comm. f_equal. apply rsum_ext. intros i Li. unfold skip.
      destruct (Nat.ltb_spec i (S p)); [reflexivity|lia].
    + change (rsum (S (S p)) f) with (rsum (S p) f + f (S p)). rewrite (IHp k f) by lia. cbn [rsum].
      replace (skip k p) with (S p) by (unfold skip; destruct (Nat.ltb_spec p k); lia). ring.
Qed.
Theorem independent_le p n A : independent p n A -> (p <= n)%nat.
Proof.
  assert (G : forall n p A, (n < p)%nat -> exists x, (exists j, (j < p)%nat /\ x j <> 0) /\ forall i, (i < n)%nat -> comb p A x i = 0).
  { clear. induction n; intros p A L.
    - exists (fun _ => 1). split; [exists 0%nat; split; [lia|lra]|intros; lia].
    - assert (D : (forall j, (j < p)%nat -> A j n = 0) \/ exists k, (k < p)%nat /\ A k n <> 0).
      { clear L IHn. induction p. { left; intros; lia. }
        destruct (Req_EM_T (A p n) 0) as [E|E]; [|right; exists p; split; [lia|auto]].
        destruct IHp as [H|[k [Lk Hk]]]; [left|right; exists k; split; [lia|auto]].
        intros j Lj. destruct (Nat.eq_dec j p) as [->|]; auto. apply H; lia. }
      destruct D as [H|[k [Lk Hk]]].
      + destruct (IHn p A ltac:(lia)) as [x [X1 X2]]. exists x. split; auto. intros i Li.
        destruct (Nat.eq_dec i n) as [->|]; [|apply X2; lia].
        unfold comb. rewrite (rsum_ext p _ (fun _ => 0)); [apply rsum_zero|]. intros j Lj. rewrite H by auto. ring.
      + destruct p as [|p]; [lia|].
        destruct (IHn p (fun j i => A (skip k j) i - A (skip k j) n / A k n * A k i) ltac:(lia)) as [y [[j0 [L0 Y0]] Y]].
        set (xk := - rsum p (fun j => y j * A (skip k j) n) / A k n).
        set (x := fun j => if (j =? k)%nat then xk else y (if (j <? k)%nat then j else (j - 1)%nat)).
        assert (XS : forall j, x (skip k j) = y j).
        { intros j. unfold x, skip. destruct (Nat.ltb_spec j k).
          - destruct (Nat.eqb_spec j k); [lia|]. destruct (Nat.ltb_spec j k); [reflexivity|lia].
          - destruct (Nat.eqb_spec (S j) k); [lia|]. destruct (Nat.ltb_spec (S j) k); [lia|]. f_equal. lia. }
        assert (XK : x k = xk) by (unfold x; rewrite Nat.eqb_refl; reflexivity).
        exists x. split.
        * exists (skip k j0). rewrite XS. split; auto. unfold skip. destruct (Nat.ltb_spec j0 k); lia.
        * intros i Li. unfold comb. rewrite (rsum_skip p k) by lia. rewrite XK.
          rewrite (rsum_ext p _ (fun j => y j * A (skip k j) i)) by (intros; rewrite XS; reflexivity).
          destruct (Nat.eq_dec i n) as [->|Ni].
          -- unfold xk. field. exact Hk.
          -- specialize (Y i ltac:(lia)). unfold comb in Y.
             rewrite (rsum_ext p _ (fun j => y j * A (skip k j) i + (- A k i / A k n) * (y j * A (skip k j) n))) in Y by (intros; field; exact Hk).
             rewrite rsum_plus, rsum_scal in Y. unfold xk. rewrite <- Y. field. exact Hk. }
  intros I. destruct (le_lt_dec p n) as [|L]; auto. exfalso.
  destruct (G n p A L) as [x [[j [Lj Hj]] X]]. apply Hj. apply I; auto.
Qed.

(** Taylor shift *)
Lemma peval_head p x s : peval (S p) x s = x 0%nat + s * peval p (fun j => x (S j)) s.
Proof.
  unfold peval. rewrite rsum_head. cbn [pow]. rewrite <- rsum_scal, Rmult_1_r. f_equal. apply rsum_ext; intros; ring.
Qed.
Lemma peval_ext p x y s : (forall j, (j < p)%nat -> x j = y j) -> peval p x s = peval p y s.
Proof. intros H. apply rsum_ext. intros. rewrite H by auto. reflexivity. Qed.
Lemma peval_shift p : forall x h, exists y, (forall s, peval p x (s + h) = peval p y s) /\ y (p - 1)%nat = x (p - 1)%nat.
Proof.
  induction p; intros x h.
  - exists x. split; auto.
  - destruct (IHp (fun j => x (S j)) h) as [y [Y1 Y2]].
    set (yy := fun j => if (j <? p)%nat then y j else 0).
    exists (fun j => match j with O => x 0%nat + h * yy 0%nat | S j' => yy j' + h * yy j end). split.
    + intros s. rewrite peval_head, Y1, peval_head.
      assert (E : forall s, peval p (fun j => yy j + h * yy (S j)) s * s = s * peval p yy s + h * (peval p yy s - yy 0%nat)).
      { intros s'. assert (P1 : peval p (fun j => yy j + h * yy (S j)) s' = peval p yy s' + h * peval p (fun j => yy (S j)) s').
        { unfold peval. rewrite <- rsum_scal, <- rsum_plus. apply rsum_ext; intros; ring. }
        assert (P2 : peval p yy s' = yy 0%nat + s' * peval p (fun j => yy (S j)) s').
        { rewrite <- (peval_head p yy s'). unfold peval. cbn [rsum]. unfold yy at 3. rewrite Nat.ltb_irrefl. ring. }
        rewrite P1. rewrite P2 at 3. ring. }
      rewrite (peval_ext p y yy s) by (intros j Lj; unfold yy; destruct (Nat.ltb_spec j p); [reflexivity|lia]).
      change (fun j => yy j + h * yy (S j)) with (fun j => (fun j => match j with O => x 0%nat + h * yy 0%nat | S j' => yy j' + h * yy j end) (S j)) in E.
      specialize (E s). cbv beta iota in E |- *. lra.
    + cbn [Nat.sub]. rewrite Nat.sub_0_r. destruct p as [|p].
      * unfold yy. cbn. ring.
      * unfold yy. destruct (Nat.ltb_spec p (S p)); [|lia]. rewrite Nat.ltb_irrefl. cbn [Nat.sub] in Y2. rewrite Nat.sub_0_r in Y2. rewrite Y2. ring.
Qed.
Lemma normeq_dot p n A B j k : is_id p (mmul p (gram n A) B) -> (j < p)%nat -> (k < p)%nat ->
  dot n (comb p A (B j)) (comb p A (B k)) = B j k.
Proof.
  intros HB Lj Lk. destruct (inv_sym p (gram n A) B ltac:(intros; apply dot_sym) HB) as [HS HL].
  rewrite dot_comb. rewrite (rsum_ext p _ (fun l => delta l j * B k l)).
  - rewrite (rsum_delta p j (B k)) by auto. apply HS; auto.
  - intros l Ll. rewrite dot_sym, dot_comb.
    rewrite (rsum_ext p _ (fun m => gram n A l m * B m j)).
    2:{ intros m Lm. rewrite (HS m j) by auto. unfold gram. ring. }
    fold (mmul p (gram n A) B l j). rewrite HB by auto. ring.
Qed.
