(** Orthogonality of the fully normalised associated Legendre functions, and further identities between them. *)
From Coq Require Import Reals Lra Lia.
From Coquelicot Require Import Coquelicot.
From Verif Require Import Base LegendreSpec LegendreSpec2.
Close Scope Z_scope.
Open Scope R_scope.
Local Arguments LD : simpl never.

(** x D^(m+1) P_(l+1) - D^(m+1) P_l = (l+1-m) D^m P_(l+1) *)
Lemma LD_down m l x : x * LD (S m) (S l) x - LD (S m) l x = (INR l + 1 - INR m) * LD m (S l) x.
Proof.
  revert x. induction m as [|m IHm]; intros x.
  - rewrite !LD_1. change (LD 0) with legP in *; cbn [INR]. destruct (leg_identities l x) as (A & _). lra.
  - assert (E1 : is_derive (fun x => x * LD (S m) (S l) x - LD (S m) l x) x
       (LD (S m) (S l) x + x * LD (S (S m)) (S l) x - LD (S (S m)) l x)).
    { auto_derive; [repeat split; eexists; apply LD_derive|].
      rewrite !DLD. ring. }
    assert (E2 : is_derive (fun x => (INR l + 1 - INR m) * LD m (S l) x) x ((INR l + 1 - INR m) * LD (S m) (S l) x)).
    { apply (is_derive_scal (LD m (S l)) x). apply LD_derive. }
    apply (is_derive_ext _ (fun x => (INR l + 1 - INR m) * LD m (S l) x)) in E1; [|intros t; apply IHm].
    apply is_derive_unique in E1. apply is_derive_unique in E2. rewrite E2 in E1. rewrite S_INR. lra.
Qed.
(** the associated differential equation *)
Lemma LD_ode m l x : (1 - x * x) * LD (S (S m)) l x = 2 * (INR m + 1) * x * LD (S m) l x - (INR l - INR m) * (INR l + INR m + 1) * LD m l x.
Proof.
  destruct l as [|k].
  - destruct m as [|m]; [rewrite !LD_S_0; change (LD 0 0 x) with 1; cbn [INR]; ring|]. rewrite !LD_S_0. ring.
  - pose proof (LD_slope (S m) k x) as A. pose proof (LD_down m k x) as B. rewrite !S_INR in *.
    replace (LD (S m) k x) with (x * LD (S m) (S k) x - (INR k + 1 - INR m) * LD m (S k) x) in A by lra. lra.
Qed.
(** (2l+3)(1-x^2) D^(m+1) P_(l+1) = (l+m+1)(l+m+2) D^m P_l - (l-m+1)(l-m+2) D^m P_(l+2) *)
Lemma LD_cross m l x : (2 * INR l + 3) * ((1 - x * x) * LD (S m) (S l) x) =
  (INR l + INR m + 1) * (INR l + INR m + 2) * LD m l x - (INR l - INR m + 1) * (INR l - INR m + 2) * LD m (S (S l)) x.
Proof.
  pose proof (LD_slope m l x) as A. pose proof (LD_rec m l x) as B.
  replace ((1 - x * x) * LD (S m) (S l) x) with ((INR l + 1 + INR m) * LD m l x - (INR l + 1) * x * LD m (S l) x + INR m * x * LD m (S l) x) by lra.
  replace ((INR l - INR m + 1) * (INR l - INR m + 2) * LD m (S (S l)) x) with ((INR l - INR m + 1) * ((INR l + 2 - INR m) * LD m (S (S l)) x)) by ring.
  rewrite B. ring.
Qed.

(** the functions on the circle: colatitude th, all real th *)
Definition NT (l m : nat) (th : R) : R := NU l m (cos th) (sin th).
Lemma NT_Nlm l m th : 0 <= th <= PI -> NT l m th = Nlm l m (cos th).
Proof.
  intros H. rewrite Nlm_NU. unfold NT. f_equal. replace (1 - cos th ^ 2) with (Rsqr (sin th)) by (rewrite sin2; unfold Rsqr; ring). symmetry. apply sqrt_Rsqr. apply sin_ge_0; lra.
Qed.
Lemma NT_derive l m th : ex_derive (NT l m) th.
Proof. unfold NT, NU. auto_derive. repeat split; eexists; apply LD_derive. Qed.
Lemma NT_cont l m th : continuous (NT l m) th.
Proof. apply (ex_derive_continuous (NT l m)). apply NT_derive. Qed.

(** x N_l = alpha_(l+1) N_(l+1) + alpha_l N_(l-1) *)
Definition alpha (l m : nat) : R := sqrt ((INR l - INR m) * (INR l + INR m) / ((2 * INR l - 1) * (2 * INR l + 1))).
Lemma alpha_pos l m : (m < l)%nat -> 0 < alpha l m.
Proof.
  intros H. apply lt_INR in H as H'. pose proof (pos_INR m). assert (1 <= INR l) by (change 1 with (INR 1); apply le_INR; lia).
  apply sqrt_lt_R0. apply Rdiv_lt_0_compat; apply Rmult_lt_0_compat; lra.
Qed.
Lemma alpha_a l m : (m < l)%nat -> alpha l m * aLM (INR l) (INR m) = 1.
Proof.
  intros H. apply lt_INR in H as H'. pose proof (pos_INR m). assert (1 <= INR l) by (change 1 with (INR 1); apply le_INR; lia).
  unfold alpha, aLM. rewrite <- sqrt_mult_alt by (left; apply Rdiv_lt_0_compat; apply Rmult_lt_0_compat; lra).
  transitivity (sqrt 1); [f_equal; field; repeat split; lra|apply sqrt_1].
Qed.
Lemma alpha_b l m : (m + 2 <= l)%nat -> alpha l m * bLM (INR l) (INR m) = alpha (l - 1) m.
Proof.
  intros H. assert (H' : INR m + 2 <= INR l) by (change 2 with (INR 2); rewrite <- plus_INR; apply le_INR; lia). pose proof (pos_INR m).
  unfold alpha, bLM. rewrite <- sqrt_mult_alt by (left; apply Rdiv_lt_0_compat; apply Rmult_lt_0_compat; lra).
  f_equal. rewrite minus_INR by lia. change (INR 1) with 1. field. repeat split; lra.
Qed.
Lemma NU_x l m x u : (m < l)%nat -> x * NU l m x u = alpha (S l) m * NU (S l) m x u + alpha l m * NU (l - 1) m x u.
Proof.
  intros H. rewrite (NU_rec (S l) m) by lia. replace (S l - 1)%nat with l by lia. replace (S l - 2)%nat with (l - 1)%nat by lia.
  pose proof (alpha_a (S l) m ltac:(lia)) as A. pose proof (alpha_b (S l) m ltac:(lia)) as B. replace (S l - 1)%nat with l in B by lia.
  rewrite <- B. replace (alpha (S l) m * (aLM (INR (S l)) (INR m) * x * NU l m x u - bLM (INR (S l)) (INR m) * NU (l - 1) m x u) + alpha (S l) m * bLM (INR (S l)) (INR m) * NU (l - 1) m x u)
    with (alpha (S l) m * aLM (INR (S l)) (INR m) * (x * NU l m x u)) by ring. rewrite A. ring.
Qed.
Lemma NU_x0 m x u : x * NU m m x u = alpha (S m) m * NU (S m) m x u.
Proof.
  rewrite NU_next. unfold alpha. rewrite S_INR. pose proof (pos_INR m).
  replace ((INR m + 1 - INR m) * (INR m + 1 + INR m) / ((2 * (INR m + 1) - 1) * (2 * (INR m + 1) + 1))) with (/ (2 * INR m + 3)) by (field; repeat split; lra).
  rewrite sqrt_inv. pose proof (sqrt_lt_R0 (2 * INR m + 3) ltac:(lra)). field. lra.
Qed.

(** ** inner products over the sphere at fixed order *)
Definition ip (l k m : nat) : R := RInt (fun th => NT l m th * NT k m th * sin th) 0 PI.
Lemma prod_cont l k m th : continuous (fun th => NT l m th * NT k m th * sin th) th.
Proof.
  apply (continuous_mult (fun th => NT l m th * NT k m th) sin); [|apply continuous_sin].
  apply (continuous_mult (NT l m) (NT k m)); apply NT_cont.
Qed.
Lemma ip_ex l k m : ex_RInt (fun th => NT l m th * NT k m th * sin th) 0 PI.
Proof. apply (ex_RInt_continuous (V := R_CompleteNormedModule)). intros. apply prod_cont. Qed.
Lemma ip_is l k m : is_RInt (fun th => NT l m th * NT k m th * sin th) 0 PI (ip l k m).
Proof. apply (RInt_correct (V := R_CompleteNormedModule)), ip_ex. Qed.
Lemma ip_sym l k m : ip l k m = ip k l m.
Proof. apply RInt_ext. intros. match goal with |- ?a = ?b => change (@eq R a b) end. ring. Qed.
Lemma FTC' (F f : R -> R) u v : (forall x, is_derive F x (f x)) -> (forall x, continuous f x) -> is_RInt f u v (F v - F u).
Proof. intros H C. apply (is_RInt_derive (V := R_CompleteNormedModule) F f); intros; [apply H|apply C]. Qed.
Lemma FTCr (F f : R -> R) u v r : F v - F u = r -> (forall x, is_derive F x (f x)) -> (forall x, continuous f x) -> is_RInt f u v r.
Proof. intros <-. apply FTC'. Qed.
Ltac req := match goal with |- ?a = ?b => change (@eq R a b) end.
Lemma int_uniq (f : R -> R) u v x y : is_RInt f u v x -> is_RInt f u v y -> x = y.
Proof. intros H K. apply (is_RInt_unique (V := R_CompleteNormedModule)) in H, K. congruence. Qed.
Lemma int_scal (f : R -> R) a u v x r : is_RInt f u v x -> a * x = r -> is_RInt (fun t => a * f t) u v r.
Proof. intros H <-. apply (is_RInt_scal (V := R_NormedModule)). exact H. Qed.
Lemma int_lin (f g : R -> R) a b u v x y : is_RInt f u v x -> is_RInt g u v y -> is_RInt (fun t => a * f t + b * g t) u v (a * x + b * y).
Proof.
  intros H K. apply (is_RInt_plus (V := R_NormedModule) (fun t => a * f t) (fun t => b * g t)); apply (is_RInt_scal (V := R_NormedModule)); auto.
Qed.
(** functions of degree above the order are orthogonal to the sectorial one *)
Lemma ip_base l m : (m < l)%nat -> ip l m m = 0.
Proof.
  intros H. set (c := (INR l - INR m) * (INR l + INR m + 1)).
  assert (C : 0 < c). { apply lt_INR in H. pose proof (pos_INR m). apply Rmult_lt_0_compat; lra. }
  assert (E : exists K, forall th, NT l m th * NT m m th * sin th = K * (c * (sin th * (sin th ^ m * sin th ^ m) * LD m l (cos th)))).
  { exists (sqrt ((if (m =? 0)%nat then 1 else 2) * (2 * INR l + 1) * INR (fact (l - m)) / INR (fact (l + m))) *
            (sqrt ((if (m =? 0)%nat then 1 else 2) * (2 * INR m + 1) * INR (fact (m - m)) / INR (fact (m + m))) * LD m m 0) / c).
    assert (CST : forall x, LD m m x = LD m m 0). { intros x. clear. induction m as [|m IH]; [reflexivity|]. rewrite !LD_sect, IH. reflexivity. }
    intros th. unfold NT, NU. rewrite (CST (cos th)). field. lra. }
  destruct E as [K E].
  assert (D : is_RInt (fun th => c * (sin th * (sin th ^ m * sin th ^ m) * LD m l (cos th))) 0 PI 0).
  { apply (FTCr (fun th => sin th ^ (2 * m + 2) * LD (S m) l (cos th))).
    - rewrite sin_PI, sin_0, pow_i by lia. ring.
    - intros th. auto_derive; [repeat split; eexists; apply LD_derive|]. rewrite DLD.
      replace (Init.Nat.pred (m + (m + 0) + 2)) with (m + m + 1)%nat by lia. replace (m + (m + 0) + 2)%nat with (m + m + 2)%nat by lia.
      rewrite !plus_INR, !pow_add. change (INR 2) with 2. cbn [pow].
      pose proof (LD_ode m l (cos th)) as O. assert (S2 : 1 - cos th * cos th = sin th * sin th) by (pose proof (sin2_cos2 th) as Q; unfold Rsqr in Q; lra).
      rewrite S2 in O. fold c in O.
      replace (c * (sin th * (sin th ^ m * sin th ^ m) * LD m l (cos th))) with (sin th * (sin th ^ m * sin th ^ m) * (c * LD m l (cos th))) by ring.
      replace (c * LD m l (cos th)) with (2 * (INR m + 1) * cos th * LD (S m) l (cos th) - sin th * sin th * LD (S (S m)) l (cos th)) by lra. ring.
    - intros th. apply (ex_derive_continuous (fun th => c * (sin th * (sin th ^ m * sin th ^ m) * LD m l (cos th)))). auto_derive. repeat split; eexists; apply LD_derive. }
  apply (int_uniq (fun th => NT l m th * NT m m th * sin th) 0 PI); [apply ip_is|].
  apply (is_RInt_ext (fun th => K * (c * (sin th * (sin th ^ m * sin th ^ m) * LD m l (cos th))))); [intros; symmetry; apply E|].
  apply (int_scal _ K _ _ 0); [exact D|ring].
Qed.
(** the norm of the sectorial functions *)
Lemma ip_sect m : ip m m m = 2 * eps_m m.
Proof.
  induction m as [|m IH].
  - apply (int_uniq (fun th => NT 0 0 th * NT 0 0 th * sin th) 0 PI); [apply ip_is|]. unfold eps_m. cbn [Nat.eqb].
    apply (is_RInt_ext sin); [intros; req; unfold NT; rewrite NU_0_0; ring|].
    replace (2 * 1) with (- cos PI - - cos 0) by (rewrite cos_PI, cos_0; ring).
    apply (FTC' (fun x => - cos x)); [intros; auto_derive; auto; ring|intros; apply continuous_sin].
  - destruct m as [|m].
    + (* m = 1: 3 sin^3 *)
      apply (int_uniq (fun th => NT 1 1 th * NT 1 1 th * sin th) 0 PI); [apply ip_is|]. unfold eps_m. cbn [Nat.eqb].
      apply (is_RInt_ext (fun th => 3 * (sin th * sin th * sin th))).
      { intros th _. req. unfold NT. rewrite NU_1_1. replace (sqrt 3 * sin th * (sqrt 3 * sin th) * sin th) with (sqrt 3 * sqrt 3 * (sin th * sin th * sin th)) by ring. rewrite sqrt_sqrt by lra. reflexivity. }
      replace (2 * 2) with ((cos PI ^ 3 - 3 * cos PI) - (cos 0 ^ 3 - 3 * cos 0)) by (rewrite cos_PI, cos_0; ring).
      apply (FTC' (fun x => cos x ^ 3 - 3 * cos x)).
      * intros x. auto_derive; auto. pose proof (sin2_cos2 x) as Q. unfold Rsqr in Q. replace (sin x * sin x) with (1 - cos x * cos x) by lra. ring.
      * intros x. apply (ex_derive_continuous (fun th => 3 * (sin th * sin th * sin th))). auto_derive. auto.
    + (* integration by parts: (2m+3) W_(m+1) = (2m+2) W_m with N^2_(m+1) = (2m+3)/(2m+2) sin^2 N_m^2 *)
      set (k := S m) in *. assert (Hk : (1 <= k)%nat) by (unfold k; lia). assert (EK : eps_m (S k) = eps_m k) by (unfold eps_m, k; reflexivity). clearbody k. set (w := fun th => NT k k th * NT k k th * sin th) in *.
      pose proof (ip_is k k k) as I0. rewrite IH in I0. fold w in I0. pose proof (pos_INR k) as Pk.
      assert (I1 : is_RInt (fun th => NT (S k) (S k) th * NT (S k) (S k) th * sin th) 0 PI (ip (S k) (S k) (S k))) by apply ip_is.
      assert (E1 : forall th, NT (S k) (S k) th * NT (S k) (S k) th * sin th = (2 * INR k + 3) / (2 * INR k + 2) * (sin th * sin th * w th)).
      { intros th. unfold NT, w. rewrite NU_sect by auto. fold (NT k k th).
        replace (sqrt ((2 * INR k + 3) / (2 * INR k + 2)) * sin th * NT k k th * (sqrt ((2 * INR k + 3) / (2 * INR k + 2)) * sin th * NT k k th) * sin th)
          with (sqrt ((2 * INR k + 3) / (2 * INR k + 2)) * sqrt ((2 * INR k + 3) / (2 * INR k + 2)) * (sin th * sin th * (NT k k th * NT k k th * sin th))) by ring.
        rewrite sqrt_sqrt; [reflexivity|]. left. apply Rdiv_lt_0_compat; lra. }
      (* N_k = c sin^k *)
      assert (CST : forall x, LD k k x = LD k k 0). { intros x. clear. induction k as [|n IH]; [reflexivity|]. rewrite !LD_sect, IH. reflexivity. }
      set (c0 := sqrt ((if (k =? 0)%nat then 1 else 2) * (2 * INR k + 1) * INR (fact (k - k)) / INR (fact (k + k))) * LD k k 0).
      assert (NK : forall th, NT k k th = c0 * sin th ^ k). { intros th. unfold NT, NU. rewrite CST. unfold c0. ring. }
      (* d/dth (- cos th * sin th^2 * N^2 ) = (2k+3) sin^2 w - (2k+2) w *)
      assert (B : is_RInt (fun th => (2 * INR k + 3) * (sin th * sin th * w th) - (2 * INR k + 2) * w th) 0 PI 0).
      { set (F := fun th => - cos th * (c0 * c0) * sin th ^ (2 * k + 2)).
        apply (FTCr F).
        - unfold F. rewrite sin_PI, sin_0, pow_i by lia. ring.
        - intros th. unfold F, w. rewrite NK. auto_derive; auto. replace (Init.Nat.pred (k + (k + 0) + 2)) with (k + k + 1)%nat by lia. replace (k + (k + 0) + 2)%nat with (k + k + 2)%nat by lia.
          rewrite !plus_INR, !pow_add. change (INR 2) with 2. cbn [pow]. pose proof (sin2_cos2 th) as Q. unfold Rsqr in Q. assert (Q' : sin th * sin th = 1 - cos th * cos th) by lra.
          set (p := sin th ^ k). clearbody p. set (a := INR k) in *. clearbody a. set (s := sin th) in *. set (cc := cos th) in *. clearbody s cc.
          replace ((2 * a + 3) * (s * s * (c0 * p * (c0 * p) * s)) - (2 * a + 2) * (c0 * p * (c0 * p) * s)) with (c0 * c0 * p * p * s * ((2 * a + 3) * (s * s) - (2 * a + 2))) by ring.
          match goal with |- ?L = _ => replace L with (c0 * c0 * p * p * s * (s * s - (2 * a + 2) * (cc * cc))) by ring end. rewrite Q'. ring.
        - intros th. apply (ex_derive_continuous (fun th => (2 * INR k + 3) * (sin th * sin th * w th) - (2 * INR k + 2) * w th)). unfold w. auto_derive. repeat split; apply NT_derive. }
      assert (B2 : is_RInt (fun th => (2 * INR k + 3) * (sin th * sin th * w th) - (2 * INR k + 2) * w th) 0 PI ((2 * INR k + 2) * ip (S k) (S k) (S k) - (2 * INR k + 2) * (2 * eps_m k))).
      { apply (is_RInt_ext (fun th => (2 * INR k + 2) * (NT (S k) (S k) th * NT (S k) (S k) th * sin th) + - (2 * INR k + 2) * w th)).
        - intros th _. req. rewrite E1. field. lra.
        - replace ((2 * INR k + 2) * ip (S k) (S k) (S k) - (2 * INR k + 2) * (2 * eps_m k)) with ((2 * INR k + 2) * ip (S k) (S k) (S k) + - (2 * INR k + 2) * (2 * eps_m k)) by ring.
          apply int_lin; auto. }
      pose proof (int_uniq _ _ _ _ _ B B2) as Q. rewrite EK.
      apply Rmult_eq_reg_l with (2 * INR k + 2); lra.
Qed.
(** multiplication by cos th is symmetric *)
Lemma ip_x l k m : (m < l)%nat -> (m < k)%nat ->
  alpha (S l) m * ip (S l) k m + alpha l m * ip (l - 1) k m = alpha (S k) m * ip l (S k) m + alpha k m * ip l (k - 1) m.
Proof.
  intros Hl Hk. apply (int_uniq (fun th => cos th * (NT l m th * NT k m th * sin th)) 0 PI).
  - apply (is_RInt_ext (fun th => alpha (S l) m * (NT (S l) m th * NT k m th * sin th) + alpha l m * (NT (l - 1) m th * NT k m th * sin th))).
    + intros th _. req. replace (cos th * (NT l m th * NT k m th * sin th)) with (cos th * NT l m th * NT k m th * sin th) by ring. unfold NT at 5. rewrite (NU_x l m) by auto. fold (NT (S l) m th) (NT (l - 1) m th). ring.
    + apply int_lin; apply ip_is.
  - apply (is_RInt_ext (fun th => alpha (S k) m * (NT l m th * NT (S k) m th * sin th) + alpha k m * (NT l m th * NT (k - 1) m th * sin th))).
    + intros th _. req. replace (cos th * (NT l m th * NT k m th * sin th)) with (NT l m th * (cos th * NT k m th) * sin th) by ring. unfold NT at 6. rewrite (NU_x k m) by auto. fold (NT (S k) m th) (NT (k - 1) m th). ring.
    + apply int_lin; apply ip_is.
Qed.
Lemma ip_x0 l m : (m < l)%nat -> alpha (S l) m * ip (S l) m m + alpha l m * ip (l - 1) m m = alpha (S m) m * ip l (S m) m.
Proof.
  intros Hl. apply (int_uniq (fun th => cos th * (NT l m th * NT m m th * sin th)) 0 PI).
  - apply (is_RInt_ext (fun th => alpha (S l) m * (NT (S l) m th * NT m m th * sin th) + alpha l m * (NT (l - 1) m th * NT m m th * sin th))).
    + intros th _. req. replace (cos th * (NT l m th * NT m m th * sin th)) with (cos th * NT l m th * NT m m th * sin th) by ring. unfold NT at 5. rewrite (NU_x l m) by auto. fold (NT (S l) m th) (NT (l - 1) m th). ring.
    + apply int_lin; apply ip_is.
  - apply (is_RInt_ext (fun th => alpha (S m) m * (NT l m th * NT (S m) m th * sin th))).
    + intros th _. req. replace (cos th * (NT l m th * NT m m th * sin th)) with (NT l m th * (cos th * NT m m th) * sin th) by ring. unfold NT at 4. rewrite NU_x0. fold (NT (S m) m th). ring.
    + apply (int_scal _ _ _ _ (ip l (S m) m)); [apply ip_is|reflexivity].
Qed.
Theorem orthonormal m : forall l k, (m <= l)%nat -> (m <= k)%nat -> ip l k m = if (l =? k)%nat then 2 * eps_m m else 0.
Proof.
  (* strong induction on the smaller index *)
  assert (G : forall j k, (k = m + j)%nat -> forall l, (k <= l)%nat -> ip l k m = if (l =? k)%nat then 2 * eps_m m else 0).
  { induction j as [j IH] using lt_wf_ind. intros k Ek l Hl.
    destruct j as [|j].
    - replace k with m in * by lia. destruct (Nat.eqb_spec l m) as [->|N]; [apply ip_sect|apply ip_base; lia].
    - destruct j as [|j].
      + (* k = m+1 *)
        replace k with (S m) in * by lia. pose proof (ip_x0 l m ltac:(lia)) as E. pose proof (alpha_pos (S m) m ltac:(lia)) as P.
        rewrite (ip_base (S l)) in E by lia. destruct (Nat.eqb_spec l (S m)) as [->|N].
        * replace (S m - 1)%nat with m in E by lia. rewrite ip_sect in E. apply Rmult_eq_reg_l with (alpha (S m) m); lra.
        * rewrite ip_base in E by lia. apply Rmult_eq_reg_l with (alpha (S m) m); lra.
      + set (k1 := (m + S j)%nat). replace k with (S k1) in * by (unfold k1; lia).
        pose proof (ip_x l k1 m ltac:(unfold k1 in *; lia) ltac:(unfold k1; lia)) as E. pose proof (alpha_pos (S k1) m ltac:(unfold k1; lia)) as P.
        rewrite (IH (S j) ltac:(lia) k1 eq_refl (S l)) in E by lia. rewrite (IH (S j) ltac:(lia) k1 eq_refl (l - 1)%nat) in E by lia.
        rewrite (IH j ltac:(lia) (k1 - 1)%nat ltac:(unfold k1; lia) l) in E by lia.
        replace (S l =? k1)%nat with false in E by (symmetry; apply Nat.eqb_neq; lia). replace (l =? k1 - 1)%nat with false in E by (symmetry; apply Nat.eqb_neq; lia).
        destruct (Nat.eqb_spec l (S k1)) as [->|N].
        * replace (S k1 - 1 =? k1)%nat with true in E by (symmetry; apply Nat.eqb_eq; lia). apply Rmult_eq_reg_l with (alpha (S k1) m); lra.
        * replace (l - 1 =? k1)%nat with false in E by (symmetry; apply Nat.eqb_neq; lia). apply Rmult_eq_reg_l with (alpha (S k1) m); lra. }
  intros l k Hl Hk. destruct (Nat.le_gt_cases k l) as [H|H].
  - apply (G (k - m)%nat); lia.
  - rewrite ip_sym, (G (l - m)%nat l ltac:(lia) k) by lia. rewrite Nat.eqb_sym. reflexivity.
Qed.
