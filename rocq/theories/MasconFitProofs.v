From Coq Require Import Reals Lra Lia String List ZifyBool ZifyNat.
From Verif Require Import Base UnitsModel GaussModel SummationModel SummationProofs GenModel DestripeModel DestripeProofs LinAlg Lstsq MasconFitModel.
Import ListNotations.
Close Scope Z_scope.
Open Scope R_scope.

(** ** sums over lists *)
Definition ltot (L : list R) : R := fold_right Rplus 0 L.
Lemma ltot_app a b : ltot (a ++ b) = ltot a + ltot b.
Proof. unfold ltot. induction a as [|x a IH]; cbn [app fold_right]; [symmetry; apply Rplus_0_l|]. rewrite IH. symmetry. apply Rplus_assoc. Qed.
Lemma rsum_nth {A} (L : list A) (d : A) g : rsum (List.length L) (fun i => g (nth i L d)) = ltot (map g L).
Proof. induction L as [|x L IH]; [reflexivity|]. cbn [List.length map ltot fold_right]. rewrite rsum_head. cbn [nth]. rewrite IH. reflexivity. Qed.
Lemma ltot_flat {A B} (f : A -> list B) g L : ltot (map g (flat_map f L)) = ltot (map (fun x => ltot (map g (f x))) L).
Proof. induction L as [|x L IH]; [reflexivity|]. cbn [flat_map map]. rewrite map_app, ltot_app, IH. reflexivity. Qed.
Lemma sumn_head n f : sumn (S n) f = f 0%nat + sumn n (fun i => f (S i)).
Proof. induction n as [|n IH]; [cbn; ring|]. rewrite sumn_S, IH, sumn_S. ring. Qed.
Lemma ltot_seq g n : forall a, ltot (map g (seq a n)) = sumn n (fun i => g (a + i)%nat).
Proof.
  induction n as [|n IH]; intros a; [reflexivity|]. cbn [seq map ltot fold_right]. fold (ltot (map g (seq (S a) n))). rewrite IH, sumn_head, Nat.add_0_r. f_equal. apply sumn_ext. intros i _. f_equal. lia.
Qed.
Lemma sumn_from a n f : sumn n (fun i => f (a + i)%nat) = sumn (a + n) (fun i => if (a <=? i)%nat then f i else 0).
Proof.
  induction n as [|n IH].
  - rewrite Nat.add_0_r. cbn [sumn]. symmetry. rewrite (sumn_ext _ _ (fun _ => 0)); [apply sumn_zero|]. intros i Hi. replace (a <=? i)%nat with false by lia. reflexivity.
  - rewrite Nat.add_succ_r, !sumn_S, IH. replace (a <=? a + n)%nat with true by lia. reflexivity.
Qed.
Lemma ltot_range g a n : ltot (map g (seq a n)) = sumn (a + n) (fun i => if (a <=? i)%nat then g i else 0).
Proof. rewrite ltot_seq. apply (sumn_from a n g). Qed.
Lemma sumn_short n N f : (n <= N)%nat -> sumn n f = sumn N (fun i => if (i <? n)%nat then f i else 0).
Proof.
  intros H. induction N as [|N IH]; [replace n with 0%nat by lia; reflexivity|]. destruct (Nat.eq_dec n (S N)) as [->|D].
  - apply sumn_ext. intros i Hi. replace (i <? S N)%nat with true by lia. reflexivity.
  - rewrite sumn_S, <- IH by lia. replace (N <? n)%nat with false by lia. ring.
Qed.

(** ** the specification sum over the harmonics: degrees LMIN..LMAX, orders up to MM; cosine terms of all orders, sine terms of the orders from 1 *)
Definition hsum (LMIN LMAX MM : nat) (g : coefs) : R :=
  sumn (LMAX + 1) (fun l => if (LMIN <=? l)%nat then
    sumn (MM + 1) (fun m => if (m <=? l)%nat then g false l m + (if (m =? 0)%nat then 0 else g true l m) else 0) else 0).
Lemma hsum_ext LMIN LMAX MM g g' : (forall cs l m, (LMIN <= l <= LMAX)%nat -> (m <= l)%nat -> (m <= MM)%nat -> (cs = true -> (1 <= m)%nat) -> g cs l m = g' cs l m) ->
  hsum LMIN LMAX MM g = hsum LMIN LMAX MM g'.
Proof.
  intros H. apply sumn_ext. intros l Hl. destruct (Nat.leb_spec LMIN l); [|reflexivity]. apply sumn_ext. intros m Hm. destruct (Nat.leb_spec m l); [|reflexivity].
  rewrite (H false) by (lia || discriminate). destruct (Nat.eqb_spec m 0); [reflexivity|]. rewrite (H true) by lia. reflexivity.
Qed.
Lemma hsum_idx LMIN LMAX MM (g : coefs) : (LMIN <= LMAX + 1)%nat -> ltot (map (fun q => g (fst (fst q)) (snd (fst q)) (snd q)) (harm_idx LMIN LMAX MM)) = hsum LMIN LMAX MM g.
Proof.
  intros HL. unfold harm_idx. rewrite ltot_flat. cbn [map]. unfold ltot at 1. cbn [fold_right]. rewrite !ltot_flat, !ltot_range. replace (LMIN + (LMAX + 1 - LMIN))%nat with (LMAX + 1)%nat by lia.
  rewrite Rplus_0_r, <- sumn_plus. unfold hsum. apply sumn_ext. intros l Hl. destruct (Nat.leb_spec LMIN l) as [G|G]; [|ring].
  rewrite !map_map. cbn [fst snd]. rewrite !ltot_range. cbn [b2n]. replace (0 + (Nat.min MM l + 1 - 0))%nat with (Nat.min MM l + 1)%nat by lia.
  replace (1 + (Nat.min MM l + 1 - 1))%nat with (Nat.min MM l + 1)%nat by lia.
  rewrite !(sumn_short (Nat.min MM l + 1) (MM + 1)) by lia. rewrite <- sumn_plus. apply sumn_ext. intros m Hm.
  destruct (Nat.leb_spec m l) as [Lm|Lm].
  - replace (m <? Nat.min MM l + 1)%nat with true by lia. cbn [Nat.leb]. destruct m as [|m]; cbn [Nat.leb Nat.eqb]; ring.
  - replace (m <? Nat.min MM l + 1)%nat with false by lia. ring.
Qed.
Lemma idx_in LMIN LMAX MM cs l m : In (cs, l, m) (harm_idx LMIN LMAX MM) <-> (LMIN <= l <= LMAX)%nat /\ (m <= l)%nat /\ (m <= MM)%nat /\ (cs = true -> (1 <= m)%nat).
Proof.
  unfold harm_idx. rewrite in_flat_map. split.
  - intros (c & Hc & H). apply in_flat_map in H. destruct H as (l' & Hl & H). apply in_map_iff in H. destruct H as (m' & E & Hm). injection E as -> -> ->. apply in_seq in Hl, Hm.
    destruct cs; cbn [b2n] in Hm; repeat split; try lia; discriminate.
  - intros (H1 & H2 & H3 & H4). exists cs. split; [destruct cs; cbn; auto|]. apply in_flat_map. exists l. split; [apply in_seq; lia|]. apply in_map_iff. exists m. split; [reflexivity|]. apply in_seq.
    destruct cs; cbn [b2n]; [specialize (H4 eq_refl)|]; lia.
Qed.

(** ** the number of harmonics *)
Lemma idx_len_gen LMIN LMAX MM : List.length (harm_idx LMIN LMAX MM) =
  list_sum (map (fun l => (Nat.min MM l + 1) + Nat.min MM l)%nat (seq LMIN (LMAX + 1 - LMIN))).
Proof.
  unfold harm_idx. cbn [flat_map]. rewrite !app_length. cbn [List.length]. rewrite Nat.add_0_r. induction (seq LMIN (LMAX + 1 - LMIN)) as [|l s IH]; [reflexivity|].
  cbn [flat_map map]. match goal with |- _ = list_sum (?a :: ?b) => change (list_sum (a :: b)) with (a + list_sum b)%nat end.
  rewrite !app_length, !map_length, !seq_length, <- IH. cbn [b2n]. lia.
Qed.
Definition kth (MM l : nat) : Z := (2 * Z.of_nat (Nat.min MM l) + 1)%Z.
Fixpoint ztot (a n : nat) (MM : nat) : Z := match n with O => 0%Z | S k => (ztot a k MM + kth MM (a + k))%Z end.
Lemma len_ztot LMIN LMAX MM : Z.of_nat (List.length (harm_idx LMIN LMAX MM)) = ztot LMIN (LMAX + 1 - LMIN) MM.
Proof.
  rewrite idx_len_gen. induction (LMAX + 1 - LMIN)%nat as [|n IH]; [reflexivity|]. rewrite seq_S, map_app, list_sum_app. cbn [ztot map]. rewrite <- IH. unfold kth. cbn [list_sum fold_right]. lia.
Qed.
Lemma ztot_val a n MM : (a <= MM + 1)%nat ->
  ztot a n MM = (if (a + n <=? MM + 1)%nat then Z.of_nat (a + n) ^ 2 - Z.of_nat a ^ 2 else (Z.of_nat MM + 1) ^ 2 - Z.of_nat a ^ 2 + (Z.of_nat (a + n) - Z.of_nat MM - 1) * (2 * Z.of_nat MM + 1))%Z.
Proof.
  intros H. induction n as [|n IH]; cbn [ztot].
  - replace (a + 0 <=? MM + 1)%nat with true by lia. rewrite Nat.add_0_r. ring.
  - rewrite IH. unfold kth. destruct (Nat.leb_spec (a + n) (MM + 1)) as [G|G]; destruct (Nat.leb_spec (a + S n) (MM + 1)) as [K|K]; try (exfalso; lia).
    + rewrite Nat.min_r by lia. replace (a + S n)%nat with (S (a + n)) by lia. rewrite Nat2Z.inj_succ. ring.
    + rewrite Nat.min_l by lia. replace (a + S n)%nat with (S (a + n)) by lia. assert (E : Z.of_nat (a + n) = (Z.of_nat MM + 1)%Z) by lia. rewrite Nat2Z.inj_succ, E. ring.
    + rewrite Nat.min_l by lia. replace (a + S n)%nat with (S (a + n)) by lia. rewrite Nat2Z.inj_succ. ring.
Qed.
Lemma count_ok LMIN LMAX MM : (MM <= LMAX)%nat -> (LMIN <= MM + 1)%nat -> n_harm LMIN LMAX MM = Z.of_nat (List.length (harm_idx LMIN LMAX MM)).
Proof.
  intros H1 H2. rewrite len_ztot, ztot_val by exact H2. unfold n_harm. replace (LMIN + (LMAX + 1 - LMIN))%nat with (LMAX + 1)%nat by lia.
  rewrite (Nat2Z.inj_add LMAX 1). change (Z.of_nat 1) with 1%Z. destruct (Nat.leb_spec (LMAX + 1) (MM + 1)) as [G|G]; [assert (LMAX = MM) by lia; subst|]; ring.
Qed.
Lemma ztot_high a n MM : (MM < a)%nat -> ztot a n MM = (Z.of_nat n * (2 * Z.of_nat MM + 1))%Z.
Proof. intros H. induction n as [|n IH]; cbn [ztot]; [ring|]. rewrite IH. unfold kth. rewrite Nat.min_l by lia. rewrite Nat2Z.inj_succ. ring. Qed.
Lemma count_bad LMIN LMAX MM : (MM + 1 < LMIN)%nat -> (LMIN <= LMAX)%nat -> (n_harm LMIN LMAX MM < Z.of_nat (List.length (harm_idx LMIN LMAX MM)))%Z.
Proof.
  intros H1 H2. rewrite len_ztot, ztot_high by lia. unfold n_harm. rewrite Nat2Z.inj_sub, Nat2Z.inj_add by lia. change (Z.of_nat 1) with 1%Z. nia.
Qed.

(** ** rows *)
Definition qd : bool * nat * nat := (false, 0, 0)%nat.
Lemma row_at idx v i : (i < List.length idx)%nat -> row idx v i = (fun q => v (fst (fst q)) (snd (fst q)) (snd q)) (nth i idx qd).
Proof. intros H. unfold row. set (g := fun q => v (fst (fst q)) (snd (fst q)) (snd q)). rewrite (nth_indep _ 0 (g qd)) by (rewrite map_length; exact H). apply (map_nth g). Qed.
Lemma rsum_rows LMIN LMAX MM (F : nat -> R) (g : coefs) : (LMIN <= LMAX + 1)%nat ->
  (forall i, (i < List.length (harm_idx LMIN LMAX MM))%nat -> F i = (fun q => g (fst (fst q)) (snd (fst q)) (snd q)) (nth i (harm_idx LMIN LMAX MM) qd)) ->
  rsum (List.length (harm_idx LMIN LMAX MM)) F = hsum LMIN LMAX MM g.
Proof. intros HL H. rewrite <- hsum_idx by exact HL. rewrite <- (rsum_nth _ qd). apply rsum_ext. exact H. Qed.
Lemma last_idx LMIN LMAX MM : (1 <= MM)%nat -> (1 <= LMAX)%nat -> (LMIN <= LMAX)%nat -> nth (List.length (harm_idx LMIN LMAX MM) - 1) (harm_idx LMIN LMAX MM) qd = (true, LMAX, Nat.min MM LMAX).
Proof.
  intros H1 H2 H3. assert (E : exists a, harm_idx LMIN LMAX MM = (a ++ [(true, LMAX, Nat.min MM LMAX)])%list).
  { unfold harm_idx. cbn [flat_map]. rewrite app_nil_r. replace (LMAX + 1 - LMIN)%nat with (S (LMAX - LMIN)) by lia. rewrite !seq_S, !flat_map_app. replace (LMIN + (LMAX - LMIN))%nat with LMAX by lia.
    cbn [flat_map]. rewrite !app_nil_r. cbn [b2n]. replace (Nat.min MM LMAX + 1 - 1)%nat with (S (Nat.min MM LMAX - 1)) by lia. rewrite (seq_S (Nat.min MM LMAX - 1) 1), map_app. cbn [map].
    replace (1 + (Nat.min MM LMAX - 1))%nat with (Nat.min MM LMAX) by lia. rewrite !app_assoc. eexists. reflexivity. }
  destruct E as [a ->]. rewrite app_length. cbn [List.length]. replace (List.length a + 1 - 1)%nat with (List.length a) by lia. rewrite app_nth2, Nat.sub_diag by lia. reflexivity.
Qed.
