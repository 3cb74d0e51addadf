(** Fourier series in colatitude of the fully normalised associated Legendre functions. *)
From Coq Require Import Reals Lra Lia ZifyBool ZifyNat List Bool Arith.
From Coquelicot Require Import Coquelicot.
From Verif Require Import Base LegendreSpec LegendreSpec2 LegendreOrtho SummationModel SummationProofs FourierLegModel.
Close Scope Z_scope.
Open Scope R_scope.
Ltac Zify.zify_post_hook ::= Z.to_euclidean_division_equations.

(** ** sums *)
Lemma sumn_first n f : sumn (S n) f = f 0%nat + sumn n (fun i => f (S i)).
Proof. induction n as [|n IH]; [cbn; ring|]. rewrite sumn_S, IH, sumn_S. ring. Qed.
Lemma sumn_cut n n' f : (n <= n')%nat -> (forall j, (n <= j < n')%nat -> f j = 0) -> sumn n' f = sumn n f.
Proof.
  intros H Z. induction n' as [|k IH]; [replace n with 0%nat by lia; reflexivity|]. destruct (Nat.eq_dec n (S k)) as [->|N]; [reflexivity|].
  rewrite sumn_S, IH, Z by (intros; try apply Z; lia). ring.
Qed.
Lemma sumn_all0 n f : (forall j, (j < n)%nat -> f j = 0) -> sumn n f = 0.
Proof. intros H. rewrite (sumn_ext _ _ (fun _ => 0)) by exact H. apply sumn_zero. Qed.
Lemma sumn_mul n m f g : sumn n f * sumn m g = sumn n (fun i => sumn m (fun j => f i * g j)).
Proof.
  induction n as [|n IH]; cbn [sumn]; [ring|]. rewrite <- IH, sumn_scal. ring.
Qed.

(** ** the explicit cosine series of P_l *)
Fixpoint gk (k : nat) : R := match k with O => 1 | S k' => gk k' * ((2 * INR k' + 1) / (2 * INR k' + 2)) end.
Definition gm (k : nat) : R := match k with O => 0 | S k' => gk k' end.
Lemma gk_pos k : 0 < gk k.
Proof. induction k as [|k IH]; cbn [gk]; [lra|]. pose proof (pos_INR k). apply Rmult_lt_0_compat; [exact IH|]. apply Rdiv_lt_0_compat; lra. Qed.
Lemma gk_gm a : 2 * INR a * gk a = (2 * INR a - 1) * gm a.
Proof. destruct a as [|a]; [cbn; ring|]. cbn [gk gm]. rewrite S_INR. pose proof (pos_INR a). field. lra. Qed.
Lemma gk_bonnet a b : (INR a + INR b) * (gk a * gk b) = (2 * (INR a + INR b) - 1) / 2 * (gk a * gm b + gm a * gk b) - (INR a + INR b - 1) * (gm a * gm b).
Proof.
  pose proof (gk_gm a) as A. pose proof (gk_gm b) as B. destruct a as [|a]; [|destruct b as [|b]].
  - cbn [gm gk INR] in *. cbn [INR] in A. lra.
  - cbn [gm gk INR] in *. lra.
  - pose proof (pos_INR a). pose proof (pos_INR b). cbn [gk gm]. rewrite !S_INR. field. lra.
Qed.
Lemma legP_fourier l th : legP l (cos th) = sumn (S l) (fun k => gk k * gk (l - k) * cos ((INR l - 2 * INR k) * th)).
Proof.
  induction l as [| |k IH1 IH2] using two_step.
  - cbn. replace ((0 - 2 * 0) * th) with 0 by ring. rewrite cos_0. ring.
  - cbn. replace ((1 - 2 * 0) * th) with th by ring. replace ((1 - 2 * 1) * th) with (- th) by ring. rewrite cos_neg. field.
  - rewrite legP_SS, IH1, IH2. clear IH1 IH2. set (f := fun i => cos ((INR (S (S k)) - 2 * INR i) * th)). pose proof (pos_INR k) as Pk.
    assert (A : sumn (S (S k)) (fun i => gk i * gk (S k - i) * f i) = sumn (S (S (S k))) (fun i => gk i * gm (S (S k) - i) * f i)).
    { rewrite (sumn_S (S (S k))). rewrite Nat.sub_diag. cbn [gm]. rewrite Rmult_0_r, Rmult_0_l, Rplus_0_r. apply sumn_ext. intros i Hi.
      replace (S (S k) - i)%nat with (S (S k - i)) by lia. reflexivity. }
    assert (B : sumn (S (S k)) (fun i => gk i * gk (S k - i) * f (S i)) = sumn (S (S (S k))) (fun i => gm i * gk (S (S k) - i) * f i)).
    { rewrite (sumn_first (S (S k))). cbn [gm]. rewrite !Rmult_0_l, Rplus_0_l. apply sumn_ext. intros i Hi. reflexivity. }
    assert (C : sumn (S k) (fun i => gk i * gk (k - i) * f (S i)) = sumn (S (S (S k))) (fun i => gm i * gm (S (S k) - i) * f i)).
    { rewrite (sumn_first (S (S k))). cbn [gm]. rewrite !Rmult_0_l, Rplus_0_l. rewrite (sumn_S (S k)). rewrite Nat.sub_diag. cbn [gm]. rewrite Rmult_0_r, Rmult_0_l, Rplus_0_r. apply sumn_ext. intros i Hi.
      replace (S (S k) - S i)%nat with (S (k - i)) by lia. reflexivity. }
    assert (X : cos th * sumn (S (S k)) (fun i => gk i * gk (S k - i) * cos ((INR (S k) - 2 * INR i) * th)) =
      / 2 * (sumn (S (S k)) (fun i => gk i * gk (S k - i) * f i) + sumn (S (S k)) (fun i => gk i * gk (S k - i) * f (S i)))).
    { rewrite <- sumn_plus, <- !sumn_scal. apply sumn_ext. intros i Hi. unfold f. rewrite !S_INR.
      replace ((INR k + 1 + 1 - 2 * INR i) * th) with ((INR k + 1 - 2 * INR i) * th + th) by ring.
      replace ((INR k + 1 + 1 - 2 * (INR i + 1)) * th) with ((INR k + 1 - 2 * INR i) * th - th) by ring. rewrite cos_plus, cos_minus. field. }
    assert (Y : sumn (S k) (fun i => gk i * gk (k - i) * cos ((INR k - 2 * INR i) * th)) = sumn (S k) (fun i => gk i * gk (k - i) * f (S i))).
    { apply sumn_ext. intros i Hi. unfold f. f_equal. f_equal. rewrite !S_INR. ring. }
    fold f. match goal with |- (?a * cos th * ?s - ?b * ?t) / ?c = ?r => replace ((a * cos th * s - b * t) / c) with ((a * (cos th * s) - b * t) / c) by (unfold Rdiv; ring) end.
    rewrite X, Y, A, B, C. rewrite <- sumn_plus. 
    match goal with |- (?a * (/ 2 * ?s) - ?b * ?t) / ?c = _ => replace ((a * (/ 2 * s) - b * t) / c) with (a / (2 * c) * s + - b / c * t) by (field; lra) end.
    rewrite <- !sumn_scal, <- sumn_plus. apply sumn_ext. intros i Hi. fold (f i).
    pose proof (gk_bonnet i (S (S k) - i)) as Q. rewrite <- plus_INR in Q. replace (i + (S (S k) - i))%nat with (S (S k)) in Q by lia. rewrite !S_INR in Q.
    replace (INR k + 1 + 1) with (INR k + 2) in Q by ring.
    replace (gk i * gk (S (S k) - i)) with ((INR k + 2) * (gk i * gk (S (S k) - i)) / (INR k + 2)) by (field; lra). rewrite Q. field. lra.
Qed.
(** folded into cosines of nonnegative multiples *)
Lemma sum_fold (phi : Z -> R) l : (forall z, phi (- z)%Z = phi z) ->
  sumn (S l) (fun k => phi (Z.of_nat l - 2 * Z.of_nat k)%Z) = sumn (S l) (fun j => if Nat.even (l + j) then (if (j =? 0)%nat then 1 else 2) * phi (Z.of_nat j) else 0).
Proof.
  intros E. induction l as [| |l IH1 _] using two_step.
  - cbn. ring.
  - cbn. pose proof (E 1%Z) as E1; cbn in E1; rewrite E1. ring.
  - rewrite sumn_first, sumn_S. rewrite (sumn_S (S (S l))), (sumn_S (S l)).
    rewrite (sumn_ext (S l) (fun i => phi (Z.of_nat (S (S l)) - 2 * Z.of_nat (S i))%Z) (fun k => phi (Z.of_nat l - 2 * Z.of_nat k)%Z)) by (intros i Hi; f_equal; lia).
    rewrite IH1. replace (Nat.even (S (S l) + S l)) with false by (symmetry; rewrite <- Nat.negb_odd; apply negb_false_iff; apply Nat.odd_spec; exists (S l); lia).
    replace (Nat.even (S (S l) + S (S l))) with true by (symmetry; apply Nat.even_spec; exists (S (S l)); lia).
    replace (S (S l) =? 0)%nat with false by reflexivity. change (fun j => if Nat.even (S (S l) + j) then _ else 0) with (fun j => if Nat.even (l + j) then (if (j =? 0)%nat then 1 else 2) * phi (Z.of_nat j) else 0).
    replace (phi (Z.of_nat (S (S l)) - 2 * Z.of_nat (S (S l)))%Z) with (phi (Z.of_nat (S (S l)))) by (rewrite <- E; f_equal; lia).
    replace (Z.of_nat (S (S l)) - 2 * Z.of_nat 0)%Z with (Z.of_nat (S (S l))) by lia. ring.
Qed.
Definition G (l j : nat) : R := if Nat.even (l + j) && (j <=? l)%nat then gk ((l - j) / 2) * gk ((l + j) / 2) else 0.
Definition w0 (j : nat) : R := if (j =? 0)%nat then 1 else 2.
Lemma even_mod n : Nat.even n = (n mod 2 =? 0)%nat.
Proof. destruct (Nat.even n) eqn:E; symmetry; [apply Nat.eqb_eq; apply Nat.even_spec in E as [k ->]; lia|apply Nat.eqb_neq; rewrite <- Nat.negb_odd in E; apply negb_false_iff, Nat.odd_spec in E as [k ->]; lia]. Qed.
Theorem legP_cosines l th : legP l (cos th) = sumn (S l) (fun j => w0 j * G l j * cos (INR j * th)).
Proof.
  rewrite legP_fourier.
  set (phi := fun z : Z => gk (Z.to_nat ((Z.of_nat l - z) / 2)) * gk (Z.to_nat ((Z.of_nat l + z) / 2)) * cos (IZR z * th)).
  assert (E : forall z, phi (- z)%Z = phi z).
  { intros z. unfold phi. rewrite opp_IZR. replace (- IZR z * th) with (- (IZR z * th)) by ring. rewrite cos_neg. replace (Z.of_nat l - - z)%Z with (Z.of_nat l + z)%Z by lia. replace (Z.of_nat l + - z)%Z with (Z.of_nat l - z)%Z by lia. ring. }
  transitivity (sumn (S l) (fun k => phi (Z.of_nat l - 2 * Z.of_nat k)%Z)).
  - apply sumn_ext. intros k Hk. unfold phi. replace (Z.to_nat ((Z.of_nat l - (Z.of_nat l - 2 * Z.of_nat k)) / 2)) with k by lia. replace (Z.to_nat ((Z.of_nat l + (Z.of_nat l - 2 * Z.of_nat k)) / 2)) with (l - k)%nat by lia.
    rewrite minus_IZR, mult_IZR, <- !INR_IZR_INZ. reflexivity.
  - rewrite sum_fold by exact E. apply sumn_ext. intros j Hj. unfold G, w0, phi. rewrite <- INR_IZR_INZ. destruct (Nat.even (l + j)); cbn [andb]; [|ring]. replace (j <=? l)%nat with true by lia.
    replace (Z.to_nat ((Z.of_nat l - Z.of_nat j) / 2)) with ((l - j) / 2)%nat by lia. replace (Z.to_nat ((Z.of_nat l + Z.of_nat j) / 2)) with ((l + j) / 2)%nat by lia. ring.
Qed.
Lemma G_zero l j : (l < j)%nat \/ Nat.odd (l + j) = true -> G l j = 0.
Proof. intros H. unfold G. destruct (Nat.even (l + j)) eqn:E; [|reflexivity]. destruct H as [H|H]; [replace (j <=? l)%nat with false by lia; reflexivity|]. rewrite <- Nat.negb_even, E in H. discriminate. Qed.
Lemma G_pos l j : (j <= l)%nat -> Nat.even (l + j) = true -> 0 < G l j.
Proof. intros H E. unfold G. rewrite E. replace (j <=? l)%nat with true by lia. cbn [andb]. apply Rmult_lt_0_compat; apply gk_pos. Qed.
(** the two-term recursion from the Legendre equation *)
Lemma G_rel l j : G l (j + 2) * (lam l - (INR j + 2) * (INR j + 1)) = G l j * (lam l - INR j * (INR j + 1)).
Proof.
  destruct (Nat.even (l + j)) eqn:E.
  - destruct (Nat.le_gt_cases (j + 2) l) as [H|H].
    + rewrite even_mod in E. pose (t := ((l - j - 2) / 2)%nat). assert (EL : l = (j + 2 + 2 * t)%nat) by (unfold t; lia).
      unfold G. rewrite !even_mod. replace ((l + (j + 2)) mod 2 =? 0)%nat with true by lia. replace ((l + j) mod 2 =? 0)%nat with true by lia. replace (j + 2 <=? l)%nat with true by lia. replace (j <=? l)%nat with true by lia. cbn [andb].
      replace ((l - (j + 2)) / 2)%nat with t by lia. replace ((l + (j + 2)) / 2)%nat with (S (j + 1 + t)) by lia. replace ((l - j) / 2)%nat with (S t) by lia. replace ((l + j) / 2)%nat with (j + 1 + t)%nat by lia.
      cbn [gk]. unfold lam. rewrite EL. rewrite !plus_INR, mult_INR. change (INR 1) with 1. change (INR 2) with 2. pose proof (pos_INR t). pose proof (pos_INR j). field. lra.
    + rewrite (G_zero l (j + 2)) by lia. destruct (Nat.eq_dec j l) as [->|N]; [unfold lam; ring|]. rewrite even_mod in E. rewrite (G_zero l j) by lia. ring.
  - rewrite !G_zero; [ring|right; rewrite <- Nat.negb_even, E; reflexivity|right; rewrite <- Nat.negb_even; replace (l + (j + 2))%nat with (S (S (l + j))) by lia; cbn [Nat.even]; rewrite E; reflexivity].
Qed.
(** the recursions of the program *)
Lemma G_three l j : (2 <= j)%nat -> G l (j + 2) * (lam l - (INR j + 2) * (INR j + 1)) = 2 * (lam l - INR j ^ 2 - 0) * G l j + ((INR j - 2) * (INR j - 1) - lam l) * G l (j - 2).
Proof.
  intros H. pose proof (G_rel l j) as A. pose proof (G_rel l (j - 2)) as B. replace (j - 2 + 2)%nat with j in B by lia. rewrite minus_INR in B by exact H. change (INR 2) with 2 in B.
  replace (((INR j - 2) * (INR j - 1) - lam l) * G l (j - 2)) with (- (G l (j - 2) * (lam l - (INR j - 2) * (INR j - 2 + 1)))) by ring. rewrite <- B, A. ring.
Qed.
Lemma jG_three l j : (2 <= j)%nat -> (INR (j + 2) * G l (j + 2)) * (lam l - (INR j + 2) * (INR j + 1)) = 2 * (lam l - INR j ^ 2 - 2) * (INR j * G l j) + ((INR j - 2) * (INR j - 1) - lam l) * (INR (j - 2) * G l (j - 2)).
Proof.
  intros H. pose proof (G_rel l j) as A. pose proof (G_rel l (j - 2)) as B. replace (j - 2 + 2)%nat with j in B by lia. rewrite minus_INR in * by exact H. rewrite plus_INR. change (INR 2) with 2 in *.
  replace (((INR j - 2) * (INR j - 1) - lam l) * ((INR j - 2) * G l (j - 2))) with (- (INR j - 2) * (G l (j - 2) * (lam l - (INR j - 2) * (INR j - 2 + 1)))) by ring. rewrite <- B.
  replace ((INR j + 2) * G l (j + 2) * (lam l - (INR j + 2) * (INR j + 1))) with ((INR j + 2) * (G l (j + 2) * (lam l - (INR j + 2) * (INR j + 1)))) by ring. rewrite A. ring.
Qed.

(** ** the two lowest orders *)
Lemma NT_zonal l th : NT l 0 th = sumn (S l) (fun j => (sqrt (2 * INR l + 1) * (w0 j * G l j)) * cos (INR j * th)).
Proof. unfold NT. rewrite NU_zonal, legP_cosines, <- sumn_scal. apply sumn_ext. intros. ring. Qed.
Lemma is_derive_sumn n (f f' : nat -> R -> R) th : (forall j, (j < n)%nat -> is_derive (f j) th (f' j th)) -> is_derive (fun x => sumn n (fun j => f j x)) th (sumn n (fun j => f' j th)).
Proof.
  intros H. induction n as [|n IH]; cbn [sumn]; [apply @is_derive_const|]. apply (is_derive_plus (fun x => sumn n (fun j => f j x)) (f n) th (sumn n (fun j => f' j th)) (f' n th)); [apply IH; intros; apply H; lia|apply H; lia].
Qed.
Definition K1 (l : nat) : R := sqrt (2 * (2 * INR l + 1) * INR (fact (l - 1)) / INR (fact (l + 1))).
Lemma K1_pos l : 0 < K1 l.
Proof. apply sqrt_lt_R0. pose proof (pos_INR l). pose proof (INR_fact_lt_0 (l - 1)). pose proof (INR_fact_lt_0 (l + 1)). apply Rdiv_lt_0_compat; [apply Rmult_lt_0_compat|]; lra. Qed.
Lemma NT_one l th : NT l 1 th = sumn (S l) (fun j => (K1 l * (INR j * (w0 j * G l j))) * sin (INR j * th)).
Proof.
  assert (D1 : is_derive (fun x => legP l (cos x)) th (- sin th * LD 1 l (cos th))).
  { apply (is_derive_comp (legP l) cos). { rewrite LD_1. apply legP_derive. } auto_derive; auto. ring. }
  assert (D2 : is_derive (fun x => sumn (S l) (fun j => w0 j * G l j * cos (INR j * x))) th (sumn (S l) (fun j => - (INR j * (w0 j * G l j)) * sin (INR j * th)))).
  { apply (is_derive_sumn (S l) (fun j x => w0 j * G l j * cos (INR j * x)) (fun j x => - (INR j * (w0 j * G l j)) * sin (INR j * x))). intros j _. auto_derive; auto. ring. }
  apply (is_derive_ext _ _ th _ (fun t => legP_cosines l t)) in D1. pose proof (is_derive_unique _ _ _ D1) as E. rewrite (is_derive_unique _ _ _ D2) in E.
  unfold NT, NU. cbn [Nat.eqb pow]. rewrite Rmult_1_r. fold (K1 l). replace (K1 l * sin th * LD 1 l (cos th)) with (- K1 l * (- sin th * LD 1 l (cos th))) by ring. rewrite <- E, <- sumn_scal. apply sumn_ext. intros. ring.
Qed.

(** ** raising the order by two *)
Definition hof (m : nat) : R := if (m =? 0)%nat then 2 else 1.
Lemma sqrt_Kn a k c : 0 <= a -> 0 <= k -> 0 <= c -> forall K, 0 <= K -> a * (K * K) = (k * k) * (c * c) -> sqrt a * K = k * c.
Proof.
  intros Ha Hk Hc K HK E. apply sq_eq; [apply Rmult_le_pos; [apply sqrt_pos|exact HK]|apply Rmult_le_pos; assumption|].
  replace (sqrt a * K * (sqrt a * K)) with (sqrt a * sqrt a * (K * K)) by ring. rewrite sqrt_sqrt by exact Ha. rewrite E. ring.
Qed.
Lemma fact_SS n : INR (fact (n + 2)) = (INR n + 2) * (INR n + 1) * INR (fact n).
Proof. replace (n + 2)%nat with (S (S n)) by lia. rewrite !INR_fact_S, S_INR. ring. Qed.
Lemma NT_up l m th : (m <= l)%nat -> let L := INR l in let M := INR m in let h := hof m in
  sqrt ((L + M + 2) * (L + M + 1) / (2 * L + 1)) * NT l m th - sqrt ((L - M + 1) * (L - M + 2) / (2 * L + 5)) * NT (l + 2) m th
  + sqrt ((L - M) * (L - M - 1) / (2 * L + 1) / h) * NT l (m + 2) th = sqrt ((L + M + 4) * (L + M + 3) / (2 * L + 5) / h) * NT (l + 2) (m + 2) th.
Proof.
  intros H L M h. pose (k := (l - m)%nat). assert (EL : l = (m + k)%nat) by (unfold k; lia). clearbody k. subst l. clear H.
  unfold NT. set (x := cos th). set (u := sin th). assert (U : u * u = 1 - x * x) by (pose proof (sin2_cos2 th) as Q; unfold Rsqr in Q; fold x u in Q; lra).
  assert (EM : L = M + INR k) by (unfold L, M; apply plus_INR). pose proof (pos_INR m) as Pm. fold M in Pm. pose proof (pos_INR k) as Pk.
  assert (Hh : 0 < h) by (unfold h, hof; destruct (m =? 0)%nat; lra). assert (He : eps_m (m + 2) = h * eps_m m) by (unfold h, hof, eps_m; replace (m + 2 =? 0)%nat with false by lia; destruct (m =? 0)%nat; ring).
  pose proof (eps_pos m) as Pe. pose proof (INR_fact_lt_0 k) as Fk. pose proof (INR_fact_lt_0 (2 * m + k)) as Fm.
  set (kap := sqrt (eps_m m * INR (fact k) / INR (fact (2 * m + k + 2)))).
  assert (Pk2 : 0 < eps_m m * INR (fact k) / INR (fact (2 * m + k + 2))) by (apply Rdiv_lt_0_compat; [apply Rmult_lt_0_compat; assumption|apply INR_fact_lt_0]).
  assert (Pkap : 0 < kap) by (apply sqrt_lt_R0; exact Pk2). assert (Skap : kap * kap = eps_m m * INR (fact k) / INR (fact (2 * m + k + 2))) by (apply sqrt_sqrt; lra).
  rewrite fact_SS in Skap. rewrite plus_INR, mult_INR in Skap. change (INR 2) with 2 in Skap. fold M in Skap.
  assert (DIV : forall a b, 0 <= a -> 0 < b -> 0 <= a / b) by (intros a b Ha Hb; apply Rmult_le_pos; [exact Ha|left; apply Rinv_0_lt_compat; exact Hb]).
  assert (Q1 : sqrt ((L + M + 2) * (L + M + 1) / (2 * L + 1)) * Kn m k = kap * ((L + M + 1) * (L + M + 2))).
  { apply sqrt_Kn; try (left; assumption); try (left; apply Kn_pos); [apply DIV; [apply Rmult_le_pos|]; lra|apply Rmult_le_pos; lra|]. rewrite Kn_sq, Skap, EM. fold M. field. repeat split; lra. }
  assert (Q2 : sqrt ((L - M + 1) * (L - M + 2) / (2 * L + 5)) * Kn m (k + 2) = kap * ((L - M + 1) * (L - M + 2))).
  { apply sqrt_Kn; try (left; assumption); try (left; apply Kn_pos); [apply DIV; [apply Rmult_le_pos|]; lra|apply Rmult_le_pos; lra|]. rewrite Kn_sq, Skap, EM. fold M.
    replace (2 * m + (k + 2))%nat with (2 * m + k + 2)%nat by lia. rewrite !fact_SS. rewrite !plus_INR, mult_INR. change (INR 2) with 2. fold M. field. repeat split; lra. }
  assert (Q4 : sqrt ((L + M + 4) * (L + M + 3) / (2 * L + 5) / h) * Kn (m + 2) k = kap * 1).
  { apply sqrt_Kn; try (left; assumption); try (left; apply Kn_pos); [apply DIV; [apply DIV; [apply Rmult_le_pos|]; lra|exact Hh]|lra|]. rewrite Kn_sq, Skap, EM, He.
    replace (2 * (m + 2) + k)%nat with (2 * m + k + 2 + 2)%nat by lia. rewrite !fact_SS. rewrite !plus_INR, mult_INR. change (INR 2) with 2. fold M. field. repeat split; lra. }
  assert (Q3 : sqrt ((L - M) * (L - M - 1) / (2 * L + 1) / h) * NU (m + k) (m + 2) x u = kap * u ^ (m + 2) * LD (m + 2) (m + k) x).
  { destruct k as [|[|k]].
    - rewrite (NU_high (m + 0)), LD_high by lia. ring.
    - rewrite (NU_high (m + 1)), LD_high by lia. ring.
    - replace (m + S (S k))%nat with (m + 2 + k)%nat by lia. rewrite NU_Kn. rewrite <- !Rmult_assoc. f_equal. f_equal. rewrite <- (Rmult_1_r kap). rewrite !S_INR in *. pose proof (pos_INR k).
      apply sqrt_Kn; try (left; assumption); try (left; apply Kn_pos); [rewrite EM; apply DIV; [apply DIV; [apply Rmult_le_pos|]; lra|exact Hh]|lra|]. rewrite Kn_sq, Skap, EM, He.
      replace (2 * (m + 2) + k)%nat with (2 * m + S (S k) + 2)%nat by lia. replace (S (S k)) with (k + 2)%nat by lia. rewrite !fact_SS. rewrite !plus_INR, mult_INR. change (INR 2) with 2. fold M.
      pose proof (INR_fact_lt_0 k). pose proof (INR_fact_lt_0 (2 * m + (k + 2))). field. repeat split; lra. }
  rewrite Q3. rewrite NU_Kn. replace (m + k + 2)%nat with (m + (k + 2))%nat at 1 by lia. rewrite NU_Kn. replace (m + k + 2)%nat with (m + 2 + k)%nat by lia. rewrite NU_Kn.
  replace (sqrt ((L + M + 2) * (L + M + 1) / (2 * L + 1)) * (Kn m k * u ^ m * LD m (m + k) x)) with (sqrt ((L + M + 2) * (L + M + 1) / (2 * L + 1)) * Kn m k * (u ^ m * LD m (m + k) x)) by ring. rewrite Q1.
  replace (sqrt ((L - M + 1) * (L - M + 2) / (2 * L + 5)) * (Kn m (k + 2) * u ^ m * LD m (m + (k + 2)) x)) with (sqrt ((L - M + 1) * (L - M + 2) / (2 * L + 5)) * Kn m (k + 2) * (u ^ m * LD m (m + (k + 2)) x)) by ring. rewrite Q2.
  replace (sqrt ((L + M + 4) * (L + M + 3) / (2 * L + 5) / h) * (Kn (m + 2) k * u ^ (m + 2) * LD (m + 2) (m + 2 + k) x)) with (sqrt ((L + M + 4) * (L + M + 3) / (2 * L + 5) / h) * Kn (m + 2) k * (u ^ (m + 2) * LD (m + 2) (m + 2 + k) x)) by ring. rewrite Q4.
  pose proof (LD_cross m (m + k) x) as C. pose proof (LD_S_SS (S m) (m + k) x) as D. fold L M in C. fold L in D.
  replace (m + 2)%nat with (S (S m)) by lia. replace (S (S m) + k)%nat with (S (S (m + k))) by lia. replace (m + (k + 2))%nat with (S (S (m + k))) by lia.
  rewrite D. cbn [pow]. replace (u * (u * u ^ m)) with ((1 - x * x) * u ^ m) by (rewrite <- U; ring). rewrite <- U in C |- *.
  replace (kap * 1 * (u * u * u ^ m * (LD (S (S m)) (m + k) x + (2 * L + 3) * LD (S m) (S (m + k)) x)))
    with (kap * (u * u * u ^ m) * LD (S (S m)) (m + k) x + kap * u ^ m * ((2 * L + 3) * (u * u * LD (S m) (S (m + k)) x))) by ring. rewrite C. ring.
Qed.

(** ** the Fourier coefficients of every order *)
Definition upf (l m : nat) (a b c : R) : R := let L := INR l in let M := INR m in
  (sqrt ((L + M + 2) * (L + M + 1) / (2 * L + 1)) * a - sqrt ((L - M + 1) * (L - M + 2) / (2 * L + 5)) * b
    + sqrt ((L - M) * (L - M - 1) / (2 * L + 1) / hof m) * c) / sqrt ((L + M + 4) * (L + M + 3) / (2 * L + 5) / hof m).
Fixpoint Fc (m l j : nat) {struct m} : R :=
  match m with
  | O => sqrt (2 * INR l + 1) * (w0 j * G l j)
  | S O => K1 l * (INR j * (w0 j * G l j))
  | S (S m') => (fix go (l : nat) : R := match l with S (S l') => upf l' m' (Fc m' l' j) (Fc m' (S (S l')) j) (go l') | _ => 0 end) l
  end.
Lemma Fc_SS m l j : Fc (m + 2) (l + 2) j = upf l m (Fc m l j) (Fc m (l + 2) j) (Fc (m + 2) l j).
Proof. replace (m + 2)%nat with (S (S m)) by lia. replace (l + 2)%nat with (S (S l)) by lia. reflexivity. Qed.
Lemma Fc_low m l j : (l < 2)%nat -> Fc (m + 2) l j = 0.
Proof. intros H. replace (m + 2)%nat with (S (S m)) by lia. destruct l as [|[|l]]; [reflexivity|reflexivity|lia]. Qed.
Lemma Fc_zero m : forall l j, (l < j)%nat \/ Nat.odd (l + j) = true -> Fc m l j = 0.
Proof.
  induction m as [| |m IH _] using two_step; intros l j H.
  - cbn [Fc]. rewrite G_zero by exact H. ring.
  - cbn [Fc]. rewrite G_zero by exact H. ring.
  - replace (S (S m)) with (m + 2)%nat by lia. induction l as [| |l IHl _] using two_step; [apply Fc_low; lia|apply Fc_low; lia|].
    replace (S (S l)) with (l + 2)%nat in * by lia. rewrite Fc_SS.
    assert (H' : (l < j)%nat \/ Nat.odd (l + j) = true) by (destruct H as [H|H]; [left; lia|right; rewrite <- H; replace (l + 2 + j)%nat with (S (S (l + j))) by lia; reflexivity]).
    rewrite (IH l j H'), (IH (l + 2)%nat j H), (IHl H'). unfold upf, Rdiv. ring.
Qed.
Definition tr (m : nat) : R -> R := if Nat.even m then cos else sin.
Theorem Fc_series m : forall l th, (m <= l)%nat -> sumn (S l) (fun j => Fc m l j * tr m (INR j * th)) = NT l m th.
Proof.
  induction m as [| |m IH _] using two_step; intros l th H.
  - symmetry. apply NT_zonal.
  - symmetry. apply NT_one.
  - replace (S (S m)) with (m + 2)%nat in * by lia. replace (tr (m + 2)) with (tr m) by (unfold tr; replace (m + 2)%nat with (S (S m)) by lia; reflexivity).
    induction l as [| |l IHl _] using two_step; [lia|lia|]. replace (S (S l)) with (l + 2)%nat in * by lia.
    set (d := sqrt ((INR l + INR m + 4) * (INR l + INR m + 3) / (2 * INR l + 5) / hof m)).
    assert (Pd : 0 < d). { apply sqrt_lt_R0. pose proof (pos_INR l). pose proof (pos_INR m). assert (0 < hof m) by (unfold hof; destruct (m =? 0)%nat; lra). repeat apply Rdiv_lt_0_compat; try lra. apply Rmult_lt_0_compat; lra. }
    apply Rmult_eq_reg_l with d; [|lra]. unfold d at 2. rewrite <- (NT_up l m th ltac:(lia)). rewrite <- sumn_scal.
    set (a := sqrt ((INR l + INR m + 2) * (INR l + INR m + 1) / (2 * INR l + 1))). set (b := sqrt ((INR l - INR m + 1) * (INR l - INR m + 2) / (2 * INR l + 5))). set (c := sqrt ((INR l - INR m) * (INR l - INR m - 1) / (2 * INR l + 1) / hof m)).
    rewrite (sumn_ext _ _ (fun j => a * (Fc m l j * tr m (INR j * th)) + (- b * (Fc m (l + 2) j * tr m (INR j * th)) + c * (Fc (m + 2) l j * tr m (INR j * th))))).
    2:{ intros j Hj. rewrite Fc_SS. unfold upf. cbv zeta. fold a b c d. field. lra. }
    rewrite sumn_plus, sumn_plus, !sumn_scal. rewrite (IH (l + 2)%nat th) by lia.
    assert (CUT : forall f : nat -> R, (forall j, (l < j)%nat -> f j = 0) -> sumn (S (l + 2)) (fun j => f j * tr m (INR j * th)) = sumn (S l) (fun j => f j * tr m (INR j * th))).
    { intros f Hf. apply sumn_cut; [lia|]. intros j Hj. rewrite Hf by lia. ring. }
    rewrite (CUT (Fc m l)) by (intros j Hj; apply Fc_zero; lia). rewrite (CUT (Fc (m + 2) l)) by (intros j Hj; apply Fc_zero; lia). rewrite (IH l th) by lia.
    destruct (Nat.le_gt_cases (m + 2) l) as [Hl|Hl]; [rewrite IHl by exact Hl; ring|].
    assert (Z : c = 0). { unfold c. replace ((INR l - INR m) * (INR l - INR m - 1)) with 0. { unfold Rdiv. rewrite !Rmult_0_l. apply sqrt_0. } assert (Hc : l = m \/ l = (m + 1)%nat) by lia. destruct Hc as [-> | ->]; [ring|]. rewrite plus_INR. change (INR 1) with 1. ring. }
    rewrite Z. ring.
Qed.
