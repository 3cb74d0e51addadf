From Coq Require Import Reals Lra.
From Verif Require Import Base DestripeModel DestripeProofs LinAlg RegressModel.
Close Scope Z_scope.
Open Scope R_scope.

Lemma tab_at n f i : (i < n)%nat -> at_ (tab n f) i = f i.
Proof.
  intros L. unfold at_, tab. rewrite (nth_indep _ 0 (f 0%nat)) by (rewrite map_length, seq_length; auto).
  rewrite map_nth, seq_nth by auto. reflexivity.
Qed.
Lemma tab_len n f : length (tab n f) = n.
Proof. unfold tab. rewrite map_length, seq_length. reflexivity. Qed.
Lemma tab_ext n f g : (forall i, (i < n)%nat -> f i = g i) -> tab n f = tab n g.
Proof. intros H. unfold tab. apply map_ext_in. intros a Ha. apply in_seq in Ha. apply H; lia. Qed.
Lemma at_map f l i : (i < length l)%nat -> at_ (map f l) i = f (at_ l i).
Proof. intros L. unfold at_. rewrite (nth_indep _ 0 (f 0)) by (rewrite map_length; auto). apply map_nth. Qed.

Definition fixed (e : R) : R := if Req_EM_T e 0 then eps else e.
Lemma eps_pos : 0 < eps. Proof. unfold eps. apply Rinv_0_lt_compat. apply pow_lt. lra. Qed.
Lemma fixed_nz e : fixed e <> 0.
Proof. unfold fixed. destruct (Req_EM_T e 0); auto. pose proof eps_pos; lra. Qed.

(** what every successful fit satisfies; [s] is the row scaling (1 or 1/error) *)
Definition core_facts D n d err weight f s : Prop :=
  let p := length D in
  (forall c, In c D -> length c = n) /\ length d = n /\ (n <> p)%nat /\ f_n f = p /\ f_dof f = (Z.of_nat n - Z.of_nat p)%Z /\
  length (f_beta f) = p /\
  f_model f = tab n (comb p (col D) (at_ (f_beta f))) /\
  f_residual f = tab n (fun i => at_ d i - at_ (f_model f) i) /\
  (forall i, (i < n)%nat -> s i <> 0 /\ f_w f i = s i ^ 2) /\
  (weight = false -> (forall i, s i = 1) /\ f_data_err f = err) /\
  (weight = true -> exists es, err = Array es /\ f_data_err f = Array (map fixed es) /\ length es = n /\ (forall i, s i = / at_ (map fixed es) i)) /\
  (forall j, (j < p)%nat -> at_ (f_beta f) j = lsq p n (fun j i => s i * col D j i) (fun i => s i * at_ d i) j) /\
  is_id p (mmul p (gram n (fun j i => s i * col D j i)) (f_cov f)).

Lemma is_id_ext p M N : (forall i j, (i < p)%nat -> (j < p)%nat -> M i j = N i j) -> is_id p M -> is_id p N.
Proof. intros E H i j Li Lj. rewrite <- E; auto. Qed.

Lemma core_ok D n d err weight aicc f : fit_core D n d err weight aicc = Ok f ->
  exists s, core_facts D n d err weight f s /\
  (let SStotal := rsum n (fun i => (at_ d i - mean_ d) * (at_ d i - mean_ d)) in
   let SSerror := rsum n (fun i => at_ (f_residual f) i * at_ (f_residual f) i) in
   f_R2 f = 1 - SSerror / SStotal /\ f_R2Adj f = 1 - SSerror / SStotal * ((INR n - 1) / IZR (f_dof f))) /\
  (let K := INR (length D) + 1 in
   f_loglik f = / 2 * ((if weight then rsum n (fun i => ln (f_w f i)) else ln 1)
      - INR n * (ln (2 * PI) + 1 - ln (INR n) + ln (rsum n (fun i => f_w f i * at_ (f_residual f) i ^ 2)))) /\
   f_AIC f = -2 * f_loglik f + 2 * K + (if aicc then 2 * K * (K + 1) / (INR n - K - 1) else 0) /\
   f_BIC f = -2 * f_loglik f + ln (INR n) * K).
Proof.
  unfold fit_core. destruct (forallb (fun c => (length c =? n)%nat) D) eqn:EF; cbn [negb]; [|discriminate].
  rewrite forallb_forall in EF.
  assert (HL : forall c, In c D -> length c = n) by (intros c Hc; apply Nat.eqb_eq, EF, Hc).
  destruct weight.
  - unfold weighted. destruct err as [e|es]; cbn [bind]; [discriminate|].
    fold fixed. change (fun e => if Req_EM_T e 0 then eps else e) with fixed.
    destruct ((length (map fixed es) =? n)%nat && (length d =? n)%nat) eqn:EL; cbn [bind]; [|discriminate].
    apply andb_prop in EL. destruct EL as [L1 L2]. apply Nat.eqb_eq in L1, L2. rewrite map_length in L1.
    set (w := fun i => / at_ (map fixed es) i ^ 2).
    match goal with |- context [inv ?a ?b] => change (inv a b) with (inv a (fun j k => rsum n (fun i => col D j i * (w i * col D k i)))); destruct (inv a (fun j k => rsum n (fun i => col D j i * (w i * col D k i)))) as [H|e] eqn:EI end; cbn [bind]; [|discriminate].
    destruct (Z.of_nat n - Z.of_nat (length D) =? 0)%Z eqn:EN; [discriminate|]. apply Z.eqb_neq in EN.
    intros Q. set (p := length D) in *.
    set (s := fun i => / at_ (map fixed es) i).
    assert (Hs : forall i, (i < n)%nat -> at_ (map fixed es) i <> 0).
    { intros i L. rewrite at_map by lia. apply fixed_nz. }
    assert (HG : is_id p (mmul p (gram n (fun j i => s i * col D j i)) H)).
    { apply (is_id_ext p (mmul p (fun j k => rsum n (fun i => col D j i * (w i * col D k i))) H)); [|apply inv_ok; exact EI].
      intros i j Li Lj. unfold mmul. apply rsum_ext. intros k Lk. f_equal. unfold gram, dot. apply rsum_ext. intros l Ll.
      unfold w, s. field. apply Hs; auto. }
    exists s. assert (X : forall a b : lsfit, Ok a = Ok b -> b = a) by congruence. apply X in Q. clear X.
    split.
    { unfold core_facts. fold p. rewrite Q. cbn [f_beta f_model f_residual f_dof f_n f_cov f_w f_data_err].
      repeat split; auto; try discriminate; try lia.
      - rewrite tab_len; reflexivity.
      - apply Rinv_neq_0_compat, Hs; auto.
      - unfold w, s. field. apply Hs; auto.
      - intros _. exists es. auto.
      - intros j Lj. rewrite tab_at by auto. rewrite <- (normeq_lsq p n (fun j i => s i * col D j i) H (fun i => s i * at_ d i) j HG Lj).
        apply rsum_ext. intros k Lk. f_equal. unfold dot. apply rsum_ext. intros i Li. unfold w, s. field. apply Hs; auto. }
    split; rewrite Q; cbn [f_beta f_model f_residual f_dof f_n f_cov f_w f_data_err f_R2 f_R2Adj f_loglik f_AIC f_BIC]; repeat split; reflexivity.
  - unfold unweighted. destruct (length d =? n)%nat eqn:EL; cbn [bind]; [|discriminate]. apply Nat.eqb_eq in EL.
    destruct (Z.of_nat n - Z.of_nat (length D) =? 0)%Z eqn:EN; [discriminate|]. apply Z.eqb_neq in EN.
    set (M := match err with Array (_ :: _ :: _) => Err ValueError | _ => inv (length D) (gram n (col D)) end).
    destruct M as [H|e] eqn:EM; cbn [bind]; [|discriminate].
    assert (EI : inv (length D) (gram n (col D)) = Ok H).
    { unfold M in EM. destruct err as [e|[|e [|e' es]]]; auto; discriminate. }
    intros Q. assert (X : forall a b : lsfit, Ok a = Ok b -> b = a) by congruence. apply X in Q. clear X.
    exists (fun _ => 1). set (p := length D) in *. split.
    { unfold core_facts. fold p. rewrite Q. cbn [f_beta f_model f_residual f_dof f_n f_cov f_w f_data_err].
      repeat split; auto; try discriminate; try lia; try lra.
      - rewrite tab_len; reflexivity.
      - intros j Lj. rewrite tab_at by auto. apply lsq_ext; auto; intros; ring.
      - apply (is_id_ext p (mmul p (gram n (col D)) H)); [|apply inv_ok; exact EI].
        intros i j Li Lj. unfold mmul. apply rsum_ext. intros k Lk. f_equal. unfold gram. apply dot_ext; intros; ring. }
    split; rewrite Q; cbn [f_beta f_model f_residual f_dof f_n f_cov f_w f_data_err f_R2 f_R2Adj f_loglik f_AIC f_BIC]; repeat split; reflexivity.
Qed.

(** when does it return *)
Definition columns_ok (D : list (list R)) (n : nat) : Prop := forall c, In c D -> length c = n.
Lemma core_returns D n d err aicc : columns_ok D n -> length d = n -> (forall e e' l, err <> Array (e :: e' :: l)) ->
  (exists f, fit_core D n d err false aicc = Ok f) <-> independent (length D) n (col D) /\ (n <> length D)%nat.
Proof.
  intros HC HD HE. split.
  - intros [f Hf]. destruct (core_ok D n d err false aicc f Hf) as [s [C _]].
    destruct C as (_ & _ & N & _ & _ & _ & _ & _ & _ & W & _ & _ & G). split; auto.
    apply gram_inv. apply inv_complete. exists (f_cov f). destruct (W eq_refl) as [W1 _].
    apply (is_id_ext (length D) (mmul (length D) (gram n (fun j i => s i * col D j i)) (f_cov f))); auto.
    intros i j Li Lj. unfold mmul. apply rsum_ext. intros k Lk. f_equal. unfold gram. apply dot_ext; intros; rewrite W1; ring.
  - intros [I N]. apply gram_inv in I. destruct I as [H HI].
    unfold fit_core. replace (forallb (fun c => (length c =? n)%nat) D) with true.
    2:{ symmetry. apply forallb_forall. intros c Hc. apply Nat.eqb_eq, HC, Hc. }
    cbn [negb]. unfold unweighted. rewrite (proj2 (Nat.eqb_eq _ _) HD). cbn [bind].
    destruct (Z.eqb_spec (Z.of_nat n - Z.of_nat (length D)) 0); [lia|].
    assert (E : match err with Array (_ :: _ :: _) => Err ValueError | _ => inv (length D) (gram n (col D)) end = Ok H).
    { destruct err as [e|[|e [|e' es]]]; auto. elim (HE e e' es); reflexivity. }
    rewrite E. cbn [bind]. eauto.
Qed.
Lemma core_returns_weighted D n d es aicc : columns_ok D n -> length d = n -> length es = n ->
  (exists f, fit_core D n d (Array es) true aicc = Ok f) <-> independent (length D) n (col D) /\ (n <> length D)%nat.
Proof.
  intros HC HD HE.
  set (s := fun i => / at_ (map fixed es) i).
  assert (Hs : forall i, (i < n)%nat -> at_ (map fixed es) i <> 0).
  { intros i L. rewrite at_map by lia. apply fixed_nz. }
  assert (IE : independent (length D) n (fun j i => s i * col D j i) <-> independent (length D) n (col D)).
  { assert (X : forall x i, comb (length D) (fun j i => s i * col D j i) x i = s i * comb (length D) (col D) x i).
    { intros. unfold comb. rewrite <- rsum_scal. apply rsum_ext; intros; ring. }
    assert (Sn : forall i, (i < n)%nat -> s i <> 0) by (intros; apply Rinv_neq_0_compat, Hs; auto).
    unfold independent; split; intros I x Hx; apply I; intros i L; specialize (Hx i L); rewrite ?X in *.
    - rewrite Hx. ring.
    - apply Rmult_integral in Hx. destruct Hx; auto. elim (Sn i L); auto. }
  split.
  - intros [f Hf]. destruct (core_ok D n d (Array es) true aicc f Hf) as [s' [C _]].
    destruct C as (_ & _ & N & _ & _ & _ & _ & _ & _ & _ & W & _ & G). split; auto.
    destruct (W eq_refl) as [es' [E1 [_ [_ E2]]]]. assert (es' = es) by congruence. subst es'.
    apply IE. apply gram_inv. apply inv_complete. exists (f_cov f).
    apply (is_id_ext (length D) (mmul (length D) (gram n (fun j i => s' i * col D j i)) (f_cov f))); auto.
    intros i j Li Lj. unfold mmul. apply rsum_ext. intros k Lk. f_equal. unfold gram. apply dot_ext; intros; rewrite E2; reflexivity.
  - intros [I N]. apply IE in I. apply gram_inv in I. apply inv_complete in I. destruct I as [H HI].
    unfold fit_core. replace (forallb (fun c => (length c =? n)%nat) D) with true.
    2:{ symmetry. apply forallb_forall. intros c Hc. apply Nat.eqb_eq, HC, Hc. }
    cbn [negb]. unfold weighted. change (fun e => if Req_EM_T e 0 then eps else e) with fixed.
    rewrite map_length, HE, HD, !Nat.eqb_refl. cbn [andb bind].
    assert (HI' : exists B, inv (length D) (fun j k => rsum n (fun i => col D j i * (/ at_ (map fixed es) i ^ 2 * col D k i))) = Ok B).
    { apply inv_complete. exists H. revert HI. apply is_id_ext.
      intros i j Li Lj. unfold mmul. apply rsum_ext. intros k Lk. f_equal. unfold gram, dot. apply rsum_ext. intros l Ll. unfold s. field. apply Hs; auto. }
    destruct HI' as [B HB]. rewrite HB. cbn [bind].
    destruct (Z.eqb_spec (Z.of_nat n - Z.of_nat (length D)) 0); [lia|]. cbn [bind]. eauto.
Qed.

Lemma sq_scale n (s x : nat -> R) : dot n (fun i => s i * x i) (fun i => s i * x i) = rsum n (fun i => s i ^ 2 * x i ^ 2).
Proof. apply rsum_ext; intros; ring. Qed.
Lemma comb_scale p (s : nat -> R) A x i : comb p (fun j i => s i * A j i) x i = s i * comb p A x i.
Proof. unfold comb. rewrite <- rsum_scal. apply rsum_ext; intros; ring. Qed.

(** weighted misfit decomposition: the fit is the unique minimiser *)
Lemma core_pythagoras D n d err weight f s : core_facts D n d err weight f s -> forall x,
  rsum n (fun i => f_w f i * (at_ d i - comb (length D) (col D) x i) ^ 2) =
  rsum n (fun i => f_w f i * (at_ d i - at_ (f_model f) i) ^ 2) +
  rsum n (fun i => f_w f i * (at_ (f_model f) i - comb (length D) (col D) x i) ^ 2).
Proof.
  intros C x. destruct C as (_ & _ & _ & _ & _ & _ & EM & _ & W & _ & _ & B & _).
  set (p := length D) in *. set (A' := fun j i => s i * col D j i). set (d' := fun i => s i * at_ d i).
  pose proof (normal_min p n A' d' (lsq p n A' d') ltac:(intros; apply lsq_normal; auto) x) as P.
  assert (CB : forall i, (i < n)%nat -> comb p A' (lsq p n A' d') i = s i * at_ (f_model f) i).
  { intros i Li. rewrite EM, tab_at by auto. rewrite <- comb_scale. apply comb_ext; auto. intros j Lj. symmetry. apply B; auto. }
  rewrite (rsum_ext n _ (fun i => s i ^ 2 * (at_ d i - comb p (col D) x i) ^ 2)) by (intros i Li; destruct (W i Li) as [_ ->]; reflexivity).
  rewrite (rsum_ext n (fun i => f_w f i * (at_ d i - at_ (f_model f) i) ^ 2) (fun i => s i ^ 2 * (at_ d i - at_ (f_model f) i) ^ 2)) by (intros i Li; destruct (W i Li) as [_ ->]; reflexivity).
  rewrite (rsum_ext n (fun i => f_w f i * (at_ (f_model f) i - comb p (col D) x i) ^ 2) (fun i => s i ^ 2 * (at_ (f_model f) i - comb p (col D) x i) ^ 2)) by (intros i Li; destruct (W i Li) as [_ ->]; reflexivity).
  rewrite <- !sq_scale.
  rewrite (dot_ext n _ _ (fun i => d' i - comb p A' x i) (fun i => d' i - comb p A' x i)), P.
  2,3: intros i Li; unfold d', A'; rewrite comb_scale; ring.
  f_equal; apply dot_ext; intros i Li; rewrite ?CB by auto; unfold d', A'; rewrite ?comb_scale; ring.
Qed.
Lemma core_orthogonal D n d err weight f s : core_facts D n d err weight f s -> forall j, (j < length D)%nat ->
  rsum n (fun i => f_w f i * col D j i * at_ (f_residual f) i) = 0.
Proof.
  intros C j Lj. destruct C as (_ & _ & _ & _ & _ & _ & EM & ER & W & _ & _ & B & _).
  set (p := length D) in *. set (A' := fun j i => s i * col D j i). set (d' := fun i => s i * at_ d i).
  pose proof (lsq_normal p n A' d' j Lj) as N. rewrite <- N. unfold dot. apply rsum_ext. intros i Li.
  rewrite ER, EM, !tab_at by auto. destruct (W i Li) as [_ ->].
  rewrite (comb_ext p A' A' _ (at_ (f_beta f))); auto.
  - unfold A', d'. rewrite comb_scale. ring.
  - intros k Lk. symmetry. apply B; auto.
Qed.
Lemma core_independent D n d err weight f s : core_facts D n d err weight f s -> independent (length D) n (col D).
Proof.
  intros C. destruct C as (_ & _ & _ & _ & _ & _ & _ & _ & W & _ & _ & _ & G).
  intros x Hx. assert (I : independent (length D) n (fun j i => s i * col D j i)).
  { apply gram_inv, inv_complete. exists (f_cov f). exact G. }
  apply I. intros i Li. rewrite comb_scale, Hx by auto. ring.
Qed.

(** propagated errors *)
Lemma core_normeq D n d err weight f s j : core_facts D n d err weight f s -> (j < length D)%nat ->
  rsum n (fun i => (normeq D f j i * / s i) ^ 2) = f_cov f j j.
Proof.
  intros C Lj. destruct C as (_ & _ & _ & EN & _ & _ & _ & _ & W & _ & _ & _ & G).
  rewrite <- (normeq_sq (length D) n _ (f_cov f) j G Lj). apply rsum_ext. intros i Li. f_equal.
  unfold normeq. rewrite EN. rewrite Rmult_comm, <- rsum_scal. apply rsum_ext. intros k Lk.
  destruct (W i Li) as [S1 ->]. field. exact S1.
Qed.
Lemma cov_diag_nonneg D n d err weight f s j : core_facts D n d err weight f s -> (j < length D)%nat -> 0 <= f_cov f j j.
Proof.
  intros C Lj. rewrite <- (core_normeq D n d err weight f s j C Lj). apply rsum_nonneg. intros. apply pow2_ge_0.
Qed.
Lemma cov_diag_pos D n d err weight f s j : core_facts D n d err weight f s -> (j < length D)%nat -> 0 < f_cov f j j.
Proof.
  intros C Lj. destruct (cov_diag_nonneg D n d err weight f s j C Lj) as [H|H]; auto. exfalso.
  (* f_cov j j = |sum_k H jk A'k|^2 = 0 -> all combination zero -> H j = 0, contradiction with M H = I *)
  pose proof (core_normeq D n d err weight f s j C Lj) as E. rewrite <- H in E.
  pose proof C as C'. destruct C as (_ & _ & _ & EN & _ & _ & _ & _ & W & _ & _ & _ & G).
  assert (Z : forall i, (i < n)%nat -> comb (length D) (col D) (f_cov f j) i = 0).
  { intros i Li.
    pose proof (rsum_pos_term n (fun i => (normeq D f j i * / s i) ^ 2) i ltac:(intros; apply pow2_ge_0) Li) as P.
    rewrite E in P. cbv beta in P. assert (Q : normeq D f j i * / s i = 0) by (pose proof (pow2_ge_0 (normeq D f j i * / s i)); nra).
    destruct (W i Li) as [S1 S2]. unfold normeq in Q. rewrite EN in Q.
    rewrite Rmult_comm, <- rsum_scal in Q.
    assert (Q2 : s i * comb (length D) (col D) (f_cov f j) i = 0).
    { rewrite <- Q. unfold comb. rewrite <- rsum_scal. apply rsum_ext. intros k Lk. rewrite S2. field. exact S1. }
    apply Rmult_integral in Q2. tauto. }
  pose proof (core_independent D n d err weight f s C' (f_cov f j) Z) as HZ.
  pose proof (inv_sym (length D) _ (f_cov f) (fun i j _ _ => dot_sym n _ _) G) as [Sy _].
  specialize (G j j Lj Lj). unfold mmul in G. rewrite (rsum_ext _ _ (fun _ => 0)) in G.
  - rewrite rsum_zero in G. unfold delta in G. rewrite Nat.eqb_refl in G. lra.
  - intros k Lk. rewrite (Sy k j), HZ by auto. ring.
Qed.
