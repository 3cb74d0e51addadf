(** Lemmas about the harmonics model: flatten/expand, arithmetic, truncation. *)
From Coq Require Import Reals Lra Permutation Sorted ZifyBool ZifyNat.
From Verif Require Import Base TimeModel Arr HarmModel.
Close Scope Z_scope.
Open Scope nat_scope.

(** * lm_loop *)
Lemma lm_loop_in L M l m : In (l, m) (lm_loop L M) <-> m <= l <= L /\ m <= M.
Proof.
  unfold lm_loop. rewrite in_flat_map. split.
  - intros (m' & H1 & H2). apply in_map_iff in H2 as (l' & [= <- <-] & H2).
    apply in_seq in H1. apply in_seq in H2. lia.
  - intros [H1 H2]. exists m. split; [apply in_seq; lia|]. apply in_map_iff. exists l.
    split; [reflexivity|]. apply in_seq. lia.
Qed.

Lemma NoDup_flat_map {A B} (f : A -> list B) (l : list A) :
  NoDup l -> (forall x, In x l -> NoDup (f x)) ->
  (forall x y z, In x l -> In y l -> In z (f x) -> In z (f y) -> x = y) -> NoDup (flat_map f l).
Proof.
  induction 1 as [|a l Ha Hl IH]; intros Hf Hd; cbn; [constructor|].
  apply NoDup_app_intro.
  - apply Hf; now left.
  - apply IH; [intros; apply Hf; now right|]. intros x y z Hx Hy. apply Hd; now right.
  - intros z Hz1 Hz2. apply in_flat_map in Hz2 as (y & Hy & Hz2).
    assert (a = y) by (apply (Hd a y z); [now left|now right|exact Hz1|exact Hz2]). subst. contradiction.
Qed.

Lemma lm_loop_nodup L M : NoDup (lm_loop L M).
Proof.
  apply NoDup_flat_map; [apply seq_NoDup| |].
  - intros m _. apply FinFun.Injective_map_NoDup; [|apply seq_NoDup]. intros a b [= ->]; reflexivity.
  - intros x y [l m] _ _ H1 H2. apply in_map_iff in H1 as (? & [= _ <-] & _).
    apply in_map_iff in H2 as (? & [= _ <-] & _). reflexivity.
Qed.

Lemma lm_loop_length L M : M <= L + 1 -> Z.of_nat (length (lm_loop L M)) = n_harm L M.
Proof.
  intros H. unfold lm_loop.
  assert (G : forall k, k <= L + 2 -> (2 * Z.of_nat (length (flat_map (fun m => map (fun l => (l, m)) (seq m (L + 1 - m))) (seq 0 k)))
     = Z.of_nat k * (2 * Z.of_nat L + 3 - Z.of_nat k))%Z).
  { induction k as [|k IH]; intros Hk; [cbn; lia|].
    rewrite seq_S, flat_map_app, app_length. cbn [flat_map app]. rewrite app_nil_r, map_length, seq_length.
    rewrite Nat2Z.inj_add, Z.mul_add_distr_l, IH by lia. cbn [Nat.add]. nia. }
  specialize (G (M + 1) ltac:(lia)). unfold n_harm.
  set (X := Z.of_nat (length _)) in *. clearbody X.
  set (l := Z.of_nat L) in *. replace (Z.of_nat (M + 1)) with (Z.of_nat M + 1)%Z in G by lia. set (m := Z.of_nat M) in *.
  replace (l * l + 3 * l - (l - m) * (l - m) - (l - m))%Z with ((X - 1) * 2)%Z by lia.
  rewrite Z.div_mul by lia. lia.
Qed.

(** * fill *)
Lemma upd_app_mid {A} (l1 : list A) x l2 v : upd (l1 ++ x :: l2) (length l1) v = l1 ++ v :: l2.
Proof. induction l1 as [|a l1 IH]; cbn; [reflexivity|]. now rewrite IH. Qed.

Lemma fill_exact {A} (vals done rest : list A) : length rest = length vals ->
  fill (done ++ rest) (length done) vals = Ok (done ++ vals).
Proof.
  revert done rest. induction vals as [|v vs IH]; intros done rest H; cbn [fill].
  - destruct rest; [|discriminate]. reflexivity.
  - destruct rest as [|r rs]; [discriminate|]. injection H as H.
    rewrite app_length. cbn [length].
    destruct (Nat.ltb_spec (length done) (length done + S (length rs))); [|lia].
    rewrite upd_app_mid. specialize (IH (done ++ [v]) rs H).
    rewrite <- app_assoc in IH. cbn [app] in IH. rewrite app_length in IH. cbn [length] in IH.
    rewrite Nat.add_1_r in IH. rewrite IH, <- app_assoc. reflexivity.
Qed.

Lemma fill_zeros {A} (z : A) (n : nat) vals : n = length vals -> fill (repeat z n) 0 vals = Ok vals.
Proof. intros ->. apply (fill_exact vals [] (repeat z (length vals))). apply repeat_length. Qed.

Lemma flatten_ok h date : mmax h <= lmax h + 1 ->
  flatten date h = Ok (mkflat (lmax h) (mmax h) (map fst (lm_loop (lmax h) (mmax h))) (map snd (lm_loop (lmax h) (mmax h)))
    (depth (clm h))
    (map (fun p t => get (clm h) (fst p) (snd p) t) (lm_loop (lmax h) (mmax h)))
    (map (fun p t => get (slm h) (fst p) (snd p) t) (lm_loop (lmax h) (mmax h)))
    (if date then time h else TNone) (if date then month h else TNone)).
Proof.
  intros H. unfold flatten. rewrite <- (lm_loop_length _ _ H).
  destruct (Z.ltb_spec (Z.of_nat (length (lm_loop (lmax h) (mmax h)))) 0); [lia|].
  rewrite Nat2Z.id. repeat (rewrite fill_zeros by (rewrite map_length; reflexivity); cbn [bind]). reflexivity.
Qed.

(** * scatter *)
Lemma set_lm_shape {A} (a : arr A) l m f : same_shape (set_lm a l m f) a.
Proof. repeat split. Qed.

Lemma scatter_ok ps (val : nat * nat -> nat -> R) (a : arr R) :
  (forall l m, In (l, m) ps -> l < rows a /\ m < cols a) -> NoDup ps ->
  exists b, scatter (map fst ps) (map snd ps) (map val ps) a = Ok b /\ same_shape b a /\
    forall l m t, (In (l, m) ps -> get b l m t = val (l, m) t) /\ (~ In (l, m) ps -> get b l m t = get a l m t).
Proof.
  revert a. induction ps as [|[l0 m0] ps IH]; intros a Hb Hn; cbn [map scatter fst snd].
  - exists a. split; [reflexivity|]. split; [repeat split|]. intros; split; [intros []|reflexivity].
  - destruct (Hb l0 m0 (or_introl eq_refl)) as [H1 H2].
    replace ((l0 <? rows a) && (m0 <? cols a)) with true by lia.
    inversion Hn as [|? ? Hni Hn']; subst.
    destruct (IH (set_lm a l0 m0 (val (l0, m0)))) as (b & E & S & V).
    + intros l m Hin. cbn [set_lm rows cols]. apply Hb. now right.
    + exact Hn'.
    + exists b. split; [exact E|]. split; [exact S|]. intros l m t. destruct (V l m t) as [V1 V2]. split.
      * intros [[= <- <-]|Hin]; [|auto]. rewrite V2 by exact Hni. cbn [set_lm get]. rewrite !Nat.eqb_refl. reflexivity.
      * intros Hni'. rewrite V2 by (intros Hc; apply Hni'; now right). cbn [set_lm get].
        destruct (Nat.eqb_spec l l0), (Nat.eqb_spec m m0); cbn [andb]; try reflexivity.
        subst. exfalso. apply Hni'. now left.
Qed.

(** coefficient arrays equal on the valid triangle and zero outside *)
Definition triangle_part (a b : arr R) : Prop :=
  same_shape b a /\ forall l m t, inb a l m t ->
    get b l m t = if m <=? l then get a l m t else 0%R.

Lemma flatten_expand h : wf h -> mmax h <= lmax h + 1 ->
  exists f h', flatten true h = Ok f /\ expand true f = Ok h' /\
    lmax h' = lmax h /\ mmax h' = mmax h /\ time h' = time h /\ month h' = month h /\
    triangle_part (clm h) (clm h') /\ triangle_part (slm h) (slm h').
Proof.
  intros (W1 & W2 & (W3 & W4 & W5) & _) H. rewrite (flatten_ok h true H).
  set (ps := lm_loop (lmax h) (mmax h)).
  set (z := full (lmax h + 1) (mmax h + 1) (depth (clm h)) 0%R).
  assert (Hb : forall l m, In (l, m) ps -> l < rows z /\ m < cols z).
  { intros l m Hin. apply lm_loop_in in Hin. cbn [z full rows cols]. lia. }
  destruct (scatter_ok ps (fun p t => get (clm h) (fst p) (snd p) t) z Hb (lm_loop_nodup _ _)) as (c & Ec & Sc & Vc).
  destruct (scatter_ok ps (fun p t => get (slm h) (fst p) (snd p) t) z Hb (lm_loop_nodup _ _)) as (s & Es & Ss & Vs).
  eexists. eexists. split; [reflexivity|]. unfold expand. cbn [f_l f_m f_clm f_slm f_lmax f_mmax f_depth f_time f_month].
  fold ps. fold z. rewrite Ec. cbn [bind]. rewrite Es. cbn [bind]. split; [reflexivity|]. cbn [lmax mmax time month clm slm].
  repeat split; auto.
  - destruct Sc as (A & _ & _). cbn in A. congruence.
  - destruct Sc as (_ & A & _). cbn in A. congruence.
  - destruct Sc as (_ & _ & A). cbn in A. congruence.
  - intros l m t (I1 & I2 & I3). destruct (Vc l m t) as [V1 V2].
    destruct (Nat.leb_spec m l).
    + apply V1. apply lm_loop_in. lia.
    + rewrite V2; [reflexivity|]. unfold ps; rewrite lm_loop_in. lia.
  - destruct Ss as (A & _ & _). cbn in A. congruence.
  - destruct Ss as (_ & A & _). cbn in A. congruence.
  - destruct Ss as (_ & _ & A). cbn in A. congruence.
  - intros l m t (I1 & I2 & I3). destruct (Vs l m t) as [V1 V2].
    destruct (Nat.leb_spec m l).
    + apply V1. apply lm_loop_in. lia.
    + rewrite V2; [reflexivity|]. unfold ps; rewrite lm_loop_in. lia.
Qed.

Lemma flatten_content h f : mmax h <= lmax h + 1 -> flatten true h = Ok f ->
  Z.of_nat (length (f_clm f)) = n_harm (lmax h) (mmax h) /\
  length (f_slm f) = length (f_clm f) /\ length (f_l f) = length (f_clm f) /\ length (f_m f) = length (f_clm f) /\
  (forall k, k < length (f_clm f) -> exists l m, nth_error (f_l f) k = Some l /\ nth_error (f_m f) k = Some m /\
     m <= l <= lmax h /\ m <= mmax h /\
     (forall t, nth k (f_clm f) (fun _ => 0%R) t = get (clm h) l m t) /\
     (forall t, nth k (f_slm f) (fun _ => 0%R) t = get (slm h) l m t)) /\
  (forall l m, m <= l <= lmax h -> m <= mmax h ->
     exists k, nth_error (f_l f) k = Some l /\ nth_error (f_m f) k = Some m /\
       forall k', nth_error (f_l f) k' = Some l -> nth_error (f_m f) k' = Some m -> k' = k).
Proof.
  intros H E. rewrite (flatten_ok h true H) in E. injection E as <-.
  cbn [f_l f_m f_clm f_slm]. rewrite !map_length.
  set (ps := lm_loop (lmax h) (mmax h)).
  repeat split; auto.
  - apply (lm_loop_length _ _ H).
  - intros k Hk. destruct (nth_error ps k) as [[l m]|] eqn:E; [|apply nth_error_None in E; lia].
    exists l, m. rewrite !nth_error_map, E. cbn [option_map fst snd].
    pose proof (nth_error_In _ _ E) as Hin. apply lm_loop_in in Hin.
    repeat split; try lia.
    + intros t. erewrite (nth_error_nth (map _ ps)); [reflexivity|]. rewrite nth_error_map, E. reflexivity.
    + intros t. erewrite (nth_error_nth (map _ ps)); [reflexivity|]. rewrite nth_error_map, E. reflexivity.
  - intros l m H1 H2. assert (Hin : In (l, m) ps) by (apply lm_loop_in; lia).
    destruct (In_nth_error _ _ Hin) as [k Ek]. exists k. rewrite !nth_error_map, Ek.
    repeat split; auto. intros k' E1 E2. rewrite nth_error_map in E1, E2.
    destruct (nth_error ps k') as [[l' m']|] eqn:Ek'; [|discriminate].
    cbn in E1, E2. injection E1 as ->. injection E2 as ->.
    eapply (proj1 (NoDup_nth_error ps) (lm_loop_nodup _ _)); [|congruence].
    apply nth_error_Some. congruence.
Qed.

(** * binary operations *)
Lemma common_min a b : common a b = Nat.min a b + 1.
Proof. unfold common. destruct (Nat.ltb_spec a b); lia. Qed.

(** operand value for time slice t: rank 2 or single-slice operands repeat *)
Definition operand (b : arr R) (l m t : nat) : R :=
  match depth b with Some (S (S _)) => get b l m t | _ => get b l m 0 end.

(** shapes that add/subtract/multiply/divide accept *)
Definition compatible (a b : harm) : Prop :=
  match depth (clm a), depth (clm b) with
  | _, None => True
  | None, Some _ => False
  | Some n, Some k => k = n \/ k = 1
  end.

Definition pointwise (op : R -> R -> R) (l1 m1 : nat) (a b r : arr R) : Prop :=
  same_shape r a /\ forall l m t, inb a l m t ->
    get r l m t = if (l <? l1) && (m <? m1) then op (get a l m t) (operand b l m t) else get a l m t.

Lemma binop_spec op a b : wf a -> wf b -> compatible a b ->
  let l1 := Nat.min (lmax a) (lmax b) + 1 in
  let m1 := Nat.min (mmax a) (mmax b) + 1 in
  exists r, binop op a b = Ok r /\ lmax r = lmax a /\ mmax r = mmax a /\ time r = time a /\ month r = month a /\
    pointwise op l1 m1 (clm a) (clm b) (clm r) /\ pointwise op l1 m1 (slm a) (slm b) (slm r).
Proof.
  intros (A1 & A2 & (A3 & A4 & A5) & A6) (B1 & B2 & (B3 & B4 & B5) & B6) C l1 m1.
  unfold binop, ndim, compatible in *. rewrite !common_min. fold l1 m1.
  unfold block_op, loop_op, pointwise, operand, inb, nslice. rewrite <- A5, <- B5.
  destruct (depth (clm a)) as [n|] eqn:Da, (depth (clm b)) as [k|] eqn:Db; cbn [Nat.eqb andb]; try contradiction.
  - destruct (Nat.eqb_spec k n) as [->|N].
    + cbn [bind]. eexists; split; [reflexivity|]. cbn [lmax mmax clm slm time month set_block rows cols depth get].
      repeat split; auto; try congruence;
      intros l m t (I1 & I2 & I3); cbn [Nat.leb andb]; destruct ((l <? l1) && (m <? m1)); auto;
      (destruct n as [|[|n]]; [lia| |reflexivity]; replace t with 0 by lia; reflexivity).
    + destruct C as [->| ->]; [congruence|]. cbn [Nat.eqb bind]. eexists; split; [reflexivity|].
      cbn [lmax mmax clm slm time month set_block rows cols depth get].
      repeat split; auto; try congruence; intros l m t _; cbn [Nat.leb andb]; destruct ((l <? l1) && (m <? m1)); auto.
  - destruct A6 as (ts & ms & T & M & Lt & Lm). rewrite T. cbn [tlen bind]. rewrite Lt, Nat.leb_refl. cbn [bind].
    eexists; split; [reflexivity|]. cbn [lmax mmax clm slm time month rows cols depth get].
    repeat split; auto; try congruence; intros l m t (I1 & I2 & I3);
    replace (t <? n) with true by lia; rewrite andb_true_r; reflexivity.
  - cbn [bind]. eexists; split; [reflexivity|]. cbn [lmax mmax clm slm time month set_block rows cols depth get].
    repeat split; auto; try congruence;
    intros l m t (I1 & I2 & I3); cbn [Nat.leb andb]; destruct ((l <? l1) && (m <? m1)); auto; replace t with 0 by lia; reflexivity.
Qed.

Lemma binop_wf op a b r : wf a -> wf b -> compatible a b -> binop op a b = Ok r -> wf r /\ compatible r b /\ depth (clm r) = depth (clm a).
Proof.
  intros Wa Wb C E. destruct (binop_spec op a b Wa Wb C) as (r' & E' & H1 & H2 & H3 & H4 & [S1 _] & [S2 _]).
  rewrite E in E'. injection E' as <-.
  destruct Wa as (A1 & A2 & (A3 & A4 & A5) & A6). destruct S1 as (S1 & S1' & S1''), S2 as (S2 & S2' & S2'').
  repeat split; try congruence.
  - rewrite S1'', H3, H4. exact A6.
  - unfold compatible in *. rewrite S1''. exact C.
Qed.

(** rejected operands *)
Lemma binop_incompatible op a b : wf a -> wf b -> ~ compatible a b -> exists e, binop op a b = Err e.
Proof.
  intros (A1 & A2 & (A3 & A4 & A5) & A6) (B1 & B2 & (B3 & B4 & B5) & B6) C.
  unfold binop, ndim, compatible, block_op in *.
  destruct (depth (clm a)) as [n|] eqn:Da, (depth (clm b)) as [k|] eqn:Db; cbn [Nat.eqb andb] in *;
    try (exfalso; apply C; exact I); [|cbn [bind]; eauto].
  destruct (Nat.eqb_spec k n); [exfalso; apply C; auto|]. destruct (Nat.eqb_spec k 1); [exfalso; apply C; auto|].
  cbn [bind]; eauto.
Qed.

Definition heq (a b : harm) : Prop :=
  lmax a = lmax b /\ mmax a = mmax b /\ time a = time b /\ month a = month b /\
  aeq (clm a) (clm b) /\ aeq (slm a) (slm b).

Lemma inverse_ops op1 op2 a b : (forall x y, op2 (op1 x y) y = x) -> wf a -> wf b -> compatible a b ->
  exists r r', binop op1 a b = Ok r /\ binop op2 r b = Ok r' /\ heq r' a.
Proof.
  intros Inv Wa Wb C. destruct (binop_spec op1 a b Wa Wb C) as (r & E & H1 & H2 & H3 & H4 & [S1 V1] & [S2 V2]).
  destruct (binop_wf _ _ _ _ Wa Wb C E) as (Wr & Cr & _).
  destruct (binop_spec op2 r b Wr Wb Cr) as (r' & E' & K1 & K2 & K3 & K4 & [T1 U1] & [T2 U2]).
  exists r, r'. split; [exact E|]. split; [exact E'|].
  assert (G : forall x y z w l1 m1 l2 m2, l1 = l2 -> m1 = m2 -> pointwise op1 l1 m1 x w y -> pointwise op2 l2 m2 y w z -> aeq z x).
  { intros x y z w l1 m1 l2 m2 -> -> [(X1 & X2 & X3) X] [(Y1 & Y2 & Y3) Y]. split; [repeat split; congruence|].
    intros l m t Iz. assert (inb y l m t) as Iy by (unfold inb, nslice in *; rewrite <- Y1, <- Y2, <- Y3; exact Iz).
    assert (inb x l m t) as Ix by (unfold inb, nslice in *; rewrite <- X1, <- X2, <- X3; exact Iy).
    rewrite Y, X by assumption. destruct ((l <? l2) && (m <? m2)); [apply Inv|reflexivity]. }
  repeat split; try congruence.
  all: try (eapply G; [| |split; [exact S1|exact V1]|split; [exact T1|exact U1]]; congruence).
  all: try (eapply G; [| |split; [exact S2|exact V2]|split; [exact T2|exact U2]]; congruence).
Qed.

(** * divide *)
Definition div_pointwise (skip0 : bool) (l1 m1 : nat) (a b r : arr R) : Prop :=
  same_shape r a /\ forall l m t, inb a l m t ->
    get r l m t = if (l <? l1) && (m <? m1) && (m <=? l) && (negb skip0 || negb (m =? 0))
                  then (get a l m t / operand b l m t)%R else get a l m t.

Lemma divide_spec a b : wf a -> wf b -> compatible a b ->
  let l1 := Nat.min (lmax a) (lmax b) + 1 in
  let m1 := Nat.min (mmax a) (mmax b) + 1 in
  exists r, divide a b = Ok r /\ lmax r = lmax a /\ mmax r = mmax a /\ time r = time a /\ month r = month a /\
    div_pointwise false l1 m1 (clm a) (clm b) (clm r) /\ div_pointwise true l1 m1 (slm a) (slm b) (slm r).
Proof.
  intros (A1 & A2 & (A3 & A4 & A5) & A6) (B1 & B2 & (B3 & B4 & B5) & B6) C l1 m1.
  unfold divide, compatible in *. rewrite !common_min. fold l1 m1.
  unfold divide_arr, div_pointwise, operand, inb, nslice. rewrite <- A5, <- B5.
  destruct (depth (clm a)) as [n|] eqn:Da, (depth (clm b)) as [k|] eqn:Db; try contradiction.
  - destruct (Nat.eqb_spec k n) as [->|N].
    + cbn [bind]. eexists; split; [reflexivity|]. cbn [lmax mmax clm slm time month tri_op rows cols depth get].
      repeat split; auto; try congruence;
      intros l m t (I1 & I2 & I3); rewrite andb_true_r; destruct (_ && _ && _ && _); auto;
      (destruct n as [|[|n]]; [lia| |reflexivity]; replace t with 0 by lia; reflexivity).
    + destruct C as [->| ->]; [congruence|]. cbn [Nat.eqb bind]. eexists; split; [reflexivity|].
      cbn [lmax mmax clm slm time month tri_op rows cols depth get].
      repeat split; auto; try congruence; intros l m t _; rewrite andb_true_r; destruct (_ && _ && _ && _); auto.
  - destruct A6 as (ts & ms & T & M & Lt & Lm). rewrite T. cbn [tlen bind]. rewrite Lt, Nat.leb_refl. cbn [bind].
    eexists; split; [reflexivity|]. cbn [lmax mmax clm slm time month tri_op rows cols depth get].
    repeat split; auto; try congruence; intros l m t (I1 & I2 & I3);
    replace (t <? n) with true by lia; rewrite andb_true_r; reflexivity.
  - cbn [bind]. eexists; split; [reflexivity|]. cbn [lmax mmax clm slm time month tri_op rows cols depth get].
    repeat split; auto; try congruence;
    intros l m t (I1 & I2 & I3); rewrite andb_true_r; destruct (_ && _ && _ && _); auto; replace t with 0 by lia; reflexivity.
Qed.

(** on the common triangle (sine: order >= 1), multiply then divide restores *)
Lemma multiply_divide a b : wf a -> wf b -> compatible a b ->
  let l1 := Nat.min (lmax a) (lmax b) + 1 in
  let m1 := Nat.min (mmax a) (mmax b) + 1 in
  (forall l m t, l < l1 -> m < m1 -> m <= l -> operand (clm b) l m t <> 0%R) ->
  (forall l m t, l < l1 -> m < m1 -> m <= l -> m <> 0 -> operand (slm b) l m t <> 0%R) ->
  exists p r, multiply a b = Ok p /\ divide p b = Ok r /\
    (forall l m t, inb (clm a) l m t -> m <= l \/ l1 <= l \/ m1 <= m -> get (clm r) l m t = get (clm a) l m t) /\
    (forall l m t, inb (slm a) l m t -> (m <= l /\ m <> 0) \/ l1 <= l \/ m1 <= m -> get (slm r) l m t = get (slm a) l m t).
Proof.
  intros Wa Wb C l1 m1 Nc Ns.
  destruct (binop_spec Rmult a b Wa Wb C) as (p & E & H1 & H2 & H3 & H4 & [S1 V1] & [S2 V2]).
  destruct (binop_wf _ _ _ _ Wa Wb C E) as (Wp & Cp & _).
  destruct (divide_spec p b Wp Wb Cp) as (r & E' & K1 & K2 & K3 & K4 & [T1 U1] & [T2 U2]).
  exists p, r. split; [exact E|]. split; [exact E'|].
  rewrite H1, H2 in U1, U2. fold l1 m1 in V1, V2, U1, U2.
  destruct S1 as (X1 & X2 & X3), S2 as (Y1 & Y2 & Y3).
  split; intros l m t I Hc.
  - rewrite U1 by (unfold inb, nslice in *; rewrite X1, X2, X3; exact I). rewrite V1 by exact I.
    cbn [negb orb]. rewrite andb_true_r.
    destruct (Nat.ltb_spec l l1), (Nat.ltb_spec m m1), (Nat.leb_spec m l); cbn [andb]; try reflexivity; try lia.
    field. apply Nc; assumption.
  - rewrite U2 by (unfold inb, nslice in *; rewrite Y1, Y2, Y3; exact I). rewrite V2 by exact I.
    cbn [negb orb].
    destruct (Nat.ltb_spec l l1), (Nat.ltb_spec m m1), (Nat.leb_spec m l), (Nat.eqb_spec m 0); cbn [andb negb]; try reflexivity; try lia.
    field. apply Ns; assumption.
Qed.

(** divide leaves everything outside the common triangle alone *)
Lemma divide_frame a b r : wf a -> wf b -> compatible a b -> divide a b = Ok r ->
  let l1 := Nat.min (lmax a) (lmax b) + 1 in
  let m1 := Nat.min (mmax a) (mmax b) + 1 in
  (forall l m t, inb (clm a) l m t -> l < m \/ l1 <= l \/ m1 <= m -> get (clm r) l m t = get (clm a) l m t) /\
  (forall l m t, inb (slm a) l m t -> m = 0 \/ l < m \/ l1 <= l \/ m1 <= m -> get (slm r) l m t = get (slm a) l m t).
Proof.
  intros Wa Wb C E l1 m1. destruct (divide_spec a b Wa Wb C) as (r' & E' & _ & _ & _ & _ & [_ U1] & [_ U2]).
  rewrite E in E'. injection E' as <-. fold l1 m1 in U1, U2. split; intros l m t I Hc.
  - rewrite U1 by exact I. cbn [negb orb]. rewrite andb_true_r.
    destruct (Nat.ltb_spec l l1), (Nat.ltb_spec m m1), (Nat.leb_spec m l); cbn [andb]; try reflexivity; lia.
  - rewrite U2 by exact I. cbn [negb orb].
    destruct (Nat.ltb_spec l l1), (Nat.ltb_spec m m1), (Nat.leb_spec m l), (Nat.eqb_spec m 0); cbn [andb negb]; try reflexivity; lia.
Qed.

(** * truncate *)
Lemma truncate_spec h L lmin M : M <> 0 ->
  let r := truncate h (Some L) lmin (Some M) in
  lmax r = L /\ mmax r = M /\ time r = time h /\ month r = month h /\
  forall (sel : harm -> arr R), sel = clm \/ sel = slm ->
  rows (sel r) = L + 1 /\ cols (sel r) = M + 1 /\ depth (sel r) = depth (sel h) /\
  forall l m t, l <= L -> m <= M ->
    get (sel r) l m t = if (lmin <=? l) && (l <=? lmax h) && (m <=? mmax h) then get (sel h) l m t else 0%R.
Proof.
  intros HM r. unfold r, truncate. destruct (Nat.eqb_spec M 0); [contradiction|]. cbn [lmax mmax time month].
  repeat split; destruct H as [-> | ->]; cbn [clm slm trunc_arr set_block full rows cols depth get]; auto;
  intros l m t Hl Hm;
  set (c1 := if L <? lmax h then L + 1 else lmax h + 1); set (c2 := if M <? mmax h then M + 1 else mmax h + 1);
  (assert ((l <? c1) = (l <=? lmax h)) as -> by (unfold c1; destruct (Nat.ltb_spec L (lmax h)); lia));
  (assert ((m <? c2) = (m <=? mmax h)) as -> by (unfold c2; destruct (Nat.ltb_spec M (mmax h)); lia)); reflexivity.
Qed.

Lemma truncate_wf h a b c : wf h -> wf (truncate h a b c).
Proof.
  intros (W1 & W2 & (W3 & W4 & W5) & W6). unfold truncate, wf.
  cbn [lmax mmax clm slm time month trunc_arr set_block full rows cols depth same_shape].
  repeat split; auto; try congruence.
Qed.

Lemma truncate_twice h L1 lmin1 M1 L2 lmin2 M2 : M1 <> 0 -> M2 <> 0 -> L2 <= L1 -> M2 <= M1 ->
  heq (truncate (truncate h (Some L1) lmin1 (Some M1)) (Some L2) lmin2 (Some M2))
      (truncate h (Some L2) (Nat.max lmin1 lmin2) (Some M2)).
Proof.
  intros N1 N2 HL HM.
  pose proof (truncate_spec h L1 lmin1 M1 N1) as P1. cbv zeta in P1. set (r1 := truncate h (Some L1) lmin1 (Some M1)) in *.
  pose proof (truncate_spec r1 L2 lmin2 M2 N2) as P2. cbv zeta in P2. set (r2 := truncate r1 (Some L2) lmin2 (Some M2)) in *.
  pose proof (truncate_spec h L2 (Nat.max lmin1 lmin2) M2 N2) as P3. cbv zeta in P3. set (r3 := truncate h (Some L2) _ (Some M2)) in *.
  clearbody r1 r2 r3.
  destruct P1 as (A1 & A2 & A3 & A4 & A5), P2 as (B1 & B2 & B3 & B4 & B5), P3 as (C1 & C2 & C3 & C4 & C5).
  assert (G : forall sel, sel = clm \/ sel = slm -> aeq (sel r2) (sel r3)).
  { intros sel Hs. destruct (A5 sel Hs) as (a1 & a2 & a3 & a4), (B5 sel Hs) as (b1 & b2 & b3 & b4), (C5 sel Hs) as (c1 & c2 & c3 & c4).
    split; [repeat split; congruence|]. intros l m t (I1 & I2 & _). rewrite b1 in I1. rewrite b2 in I2.
    rewrite b4, c4 by lia. rewrite A1, A2.
    destruct (Nat.leb_spec lmin2 l), (Nat.leb_spec l L1), (Nat.leb_spec m M1); cbn [andb]; try lia;
    [rewrite a4 by lia|]; destruct (Nat.leb_spec (Nat.max lmin1 lmin2) l), (Nat.leb_spec lmin1 l); cbn [andb]; try lia; reflexivity. }
  repeat split; try congruence; apply G; auto.
Qed.

(** truncating to the own size changes nothing *)
Lemma truncate_id h : wf h -> mmax h <> 0 -> heq (truncate h (Some (lmax h)) 0 (Some (mmax h))) h.
Proof.
  intros (W1 & W2 & (W3 & W4 & W5) & W6) N.
  pose proof (truncate_spec h (lmax h) 0 (mmax h) N) as P. cbv zeta in P.
  set (r := truncate _ _ _ _) in *. clearbody r. destruct P as (A1 & A2 & A3 & A4 & A5).
  assert (G : forall sel, sel = clm \/ sel = slm -> rows (sel h) = lmax h + 1 -> cols (sel h) = mmax h + 1 -> aeq (sel r) (sel h)).
  { intros sel Hs R1 R2. destruct (A5 sel Hs) as (a1 & a2 & a3 & a4). split; [repeat split; congruence|].
    intros l m t (I1 & I2 & _). rewrite a4 by lia.
    replace ((0 <=? l) && (l <=? lmax h) && (m <=? mmax h)) with true by lia. reflexivity. }
  repeat split; try congruence; apply G; auto; congruence.
Qed.
