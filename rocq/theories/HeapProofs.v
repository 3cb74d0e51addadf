From Coq Require Import Reals ZifyBool ZifyNat.
From Verif Require Import Base Arr HarmModel HeapModel.
Close Scope Z_scope.
Open Scope nat_scope.

Lemma nth_upd_other {A} (l : list A) i j v d : i <> j -> nth j (upd l i v) d = nth j l d.
Proof. intros H. rewrite upd_nth. now rewrite (proj2 (Nat.eqb_neq i j) H). Qed.
Lemma nth_upd_same {A} (l : list A) i v d : i < length l -> nth i (upd l i v) d = v.
Proof. intros H. rewrite upd_nth, Nat.eqb_refl. now rewrite (proj2 (Nat.ltb_lt i (length l)) H). Qed.

(** effect of one [put] *)
Lemma put_spec b s r c : r < length s ->
  let (s', r') := put b s r c in
  length s <= length s' /\ r' < length s' /\ nth r' s' (CM TNone) = c /\
  (r' = r \/ r' = length s) /\
  (forall k, k < length s -> k <> r -> k <> r' /\ nth k s' (CM TNone) = nth k s (CM TNone)).
Proof.
  intros H. unfold put. destruct b.
  - rewrite upd_length. split; [auto|]. split; [auto|]. split; [now apply nth_upd_same|]. split; [auto|].
    intros k Hk N. split; [auto|]. apply nth_upd_other; auto.
  - rewrite app_length. cbn [length]. split; [lia|]. split; [lia|].
    split; [rewrite app_nth2, Nat.sub_diag by lia; reflexivity|]. split; [auto|].
    intros k Hk N. split; [lia|]. now rewrite app_nth1.
Qed.

Lemma assign_spec md s o v : owns s o ->
  let (s', o') := assign md s o v in
  owns s' o' /\ obs s' o' = v /\ length s <= length s' /\
  (forall k, k < length s -> ~ In k (refs o) -> ~ In k (refs o') /\ nth k s' (CM TNone) = nth k s (CM TNone)).
Proof.
  intros [Nd B]. unfold assign, refs in *. cbn [In] in B.
  assert (Bc := B (r_clm o) ltac:(auto)). assert (Bs := B (r_slm o) ltac:(auto)).
  assert (Bt := B (r_time o) ltac:(auto)). assert (Bm := B (r_month o) ltac:(auto)). clear B.
  assert (Ds : r_clm o <> r_slm o /\ r_clm o <> r_time o /\ r_clm o <> r_month o /\
               r_slm o <> r_time o /\ r_slm o <> r_month o /\ r_time o <> r_month o).
  { inversion Nd as [|? ? H1 N1]; subst. inversion N1 as [|? ? H2 N2]; subst. inversion N2 as [|? ? H3 N3]; subst.
    cbn [In] in *. repeat split; intros E; [apply H1|apply H1|apply H1|apply H2|apply H2|apply H3]; rewrite E; auto. }
  destruct Ds as (D1 & D2 & D3 & D4 & D5 & D6).
  pose proof (put_spec (in_clm md) s (r_clm o) (CA (clm v)) Bc) as P1.
  destruct (put (in_clm md) s (r_clm o) (CA (clm v))) as [s1 rc]. destruct P1 as (L1 & I1 & V1 & W1 & F1).
  pose proof (put_spec (in_slm md) s1 (r_slm o) (CA (slm v)) ltac:(lia)) as P2.
  destruct (put (in_slm md) s1 (r_slm o) (CA (slm v))) as [s2 rs]. destruct P2 as (L2 & I2 & V2 & W2 & F2).
  pose proof (put_spec (in_time md) s2 (r_time o) (CT (time v)) ltac:(lia)) as P3.
  destruct (put (in_time md) s2 (r_time o) (CT (time v))) as [s3 rt]. destruct P3 as (L3 & I3 & V3 & W3 & F3).
  pose proof (put_spec (in_month md) s3 (r_month o) (CM (month v)) ltac:(lia)) as P4.
  destruct (put (in_month md) s3 (r_month o) (CM (month v))) as [s4 rm]. destruct P4 as (L4 & I4 & V4 & W4 & F4).
  destruct (F1 (r_slm o) Bs ltac:(congruence)) as [A1 _]. destruct (F1 (r_time o) Bt ltac:(congruence)) as [A2 _].
  destruct (F1 (r_month o) Bm ltac:(congruence)) as [A3 _].
  destruct (F2 rc I1 ltac:(congruence)) as [B1 B1']. destruct (F2 (r_time o) ltac:(clear - Bc Bs Bt Bm L1 L2 L3 I1 I2 I3; lia) ltac:(congruence)) as [B2 _].
  destruct (F2 (r_month o) ltac:(clear - Bc Bs Bt Bm L1 L2 L3 I1 I2 I3; lia) ltac:(congruence)) as [B3 _].
  destruct (F3 rc ltac:(clear - Bc Bs Bt Bm L1 L2 L3 I1 I2 I3; lia) ltac:(congruence)) as [C1 C1']. destruct (F3 rs ltac:(clear - Bc Bs Bt Bm L1 L2 L3 I1 I2 I3; lia) ltac:(congruence)) as [C2 C2'].
  destruct (F3 (r_month o) ltac:(clear - Bc Bs Bt Bm L1 L2 L3 I1 I2 I3; lia) ltac:(congruence)) as [C3 _].
  destruct (F4 rc ltac:(clear - Bc Bs Bt Bm L1 L2 L3 I1 I2 I3; lia) ltac:(congruence)) as [E1 E1']. destruct (F4 rs ltac:(clear - Bc Bs Bt Bm L1 L2 L3 I1 I2 I3; lia) ltac:(congruence)) as [E2 E2'].
  destruct (F4 rt ltac:(clear - Bc Bs Bt Bm L1 L2 L3 I1 I2 I3; lia) ltac:(congruence)) as [E3 E3'].
  split; [|split; [|split]].
  - split; cbn [r_clm r_slm r_time r_month].
    + unfold refs. cbn [r_clm r_slm r_time r_month]. do 4 (constructor; [cbn [In]; clear - E1 E2 E3 C1 C2 B1; intuition congruence|]). constructor.
    + unfold refs. cbn [In r_clm r_slm r_time r_month]. clear - I1 I2 I3 I4 L1 L2 L3 L4. intros r [<-|[<-|[<-|[<-|[]]]]]; lia.
  - unfold obs. cbn [r_lmax r_mmax r_clm r_slm r_time r_month].
    rewrite E1', C1', B1', V1, E2', C2', V2, E3', V3, V4. destruct v; reflexivity.
  - clear - L1 L2 L3 L4; lia.
  - cbn [r_clm r_slm r_time r_month In]. intros k Hk N.
    destruct (F1 k Hk ltac:(clear - N; intuition congruence)) as [K1 K1']. destruct (F2 k ltac:(clear - Hk L1; lia) ltac:(clear - N; intuition congruence)) as [K2 K2'].
    destruct (F3 k ltac:(clear - Hk L1 L2; lia) ltac:(clear - N; intuition congruence)) as [K3 K3']. destruct (F4 k ltac:(clear - Hk L1 L2 L3; lia) ltac:(clear - N; intuition congruence)) as [K4 K4'].
    split; [clear - K1 K2 K3 K4; intuition congruence|congruence].
Qed.

Definition separate (z : state) : Prop :=
  owns (st z) (ox z) /\ owns (st z) (oy z) /\ forall r, In r (refs (ox z)) -> ~ In r (refs (oy z)).

Lemma obs_frame s s' o : (forall r, In r (refs o) -> nth r s' (CM TNone) = nth r s (CM TNone)) -> obs s' o = obs s o.
Proof. intros H. unfold obs, refs in *. cbn [In] in H. rewrite !H by auto. reflexivity. Qed.

Lemma step_refines z c : separate z ->
  separate (step z c) /\
  (obs (st (step z c)) (ox (step z c)), obs (st (step z c)) (oy (step z c)))
  = pstep (obs (st z) (ox z), obs (st z) (oy z)) c.
Proof.
  intros (Ox & Oy & D). unfold step, pstep. cbn [fst snd]. destruct (target c).
  - pose proof (assign_spec (cmode c) (st z) (ox z) (effect c (obs (st z) (ox z)) (obs (st z) (oy z))) Ox) as A.
    destruct (assign _ _ _ _) as [s' o']. destruct A as (O' & E & L & F). cbn [st ox oy].
    assert (Fy : forall r, In r (refs (oy z)) -> ~ In r (refs o') /\ nth r s' (CM TNone) = nth r (st z) (CM TNone)).
    { intros r Hr. apply F; [now apply Oy|]. intros Hx. now apply (D r). }
    split.
    + split; [exact O'|]. cbn [st ox oy]. split.
      * split; [apply Oy|]. intros r Hr. apply Oy in Hr. lia.
      * intros r Hr Hy. now apply (Fy r Hy).
    + rewrite E. f_equal. apply obs_frame. intros r Hr. now apply Fy.
  - pose proof (assign_spec (cmode c) (st z) (oy z) (effect c (obs (st z) (oy z)) (obs (st z) (ox z))) Oy) as A.
    destruct (assign _ _ _ _) as [s' o']. destruct A as (O' & E & L & F). cbn [st ox oy].
    assert (Fx : forall r, In r (refs (ox z)) -> ~ In r (refs o') /\ nth r s' (CM TNone) = nth r (st z) (CM TNone)).
    { intros r Hr. apply F; [now apply Ox|]. now apply D. }
    split.
    + split; cbn [st ox oy].
      * split; [apply Ox|]. intros r Hr. apply Ox in Hr. lia.
      * split; [exact O'|]. intros r Hr. now apply (Fx r Hr).
    + rewrite E. f_equal. apply obs_frame. intros r Hr. now apply Fx.
Qed.

Lemma run_refines p : forall z, separate z ->
  (obs (st (run z p)) (ox (run z p)), obs (st (run z p)) (oy (run z p)))
  = prun (obs (st z) (ox z), obs (st z) (oy z)) p.
Proof.
  induction p as [|c p IH]; intros z S; [reflexivity|].
  destruct (step_refines z c S) as [S' E]. change (run z (c :: p)) with (run (step z c) p).
  rewrite (IH _ S'), E. reflexivity.
Qed.

Lemma copy_spec s x : owns s x ->
  let (s', y) := copy s x in
  separate (mkstate s' x y) /\ obs s' y = obs s x /\ obs s' x = obs s x.
Proof.
  intros [Nd B]. unfold copy. set (v := obs s x). set (n := length s).
  set (ext := [CA (clm v); CA (slm v); CT (time v); CM (month v)]).
  assert (Ln : length (s ++ ext) = n + 4) by (rewrite app_length; reflexivity).
  assert (Nx : forall k, k < 4 -> nth (n + k) (s ++ ext) (CM TNone) = nth k ext (CM TNone)).
  { intros k Hk. rewrite app_nth2 by lia. f_equal. lia. }
  split; [|split].
  - split; [split; [exact Nd|cbn [st ox]; rewrite Ln; intros r Hr; apply B in Hr; fold n in Hr; lia]|]. split; [split|].
    + unfold refs; cbn [oy r_clm r_slm r_time r_month]. do 4 (constructor; [cbn [In]; clear; intuition lia|]). constructor.
    + cbn [st oy]. rewrite Ln. unfold refs; cbn [In r_clm r_slm r_time r_month]. clear; intuition lia.
    + cbn [ox oy]. intros r Hr. apply B in Hr. fold n in Hr. unfold refs; cbn [In r_clm r_slm r_time r_month]. clear - Hr; intuition lia.
  - unfold obs at 1. cbn [r_lmax r_mmax r_clm r_slm r_time r_month].
    rewrite <- (Nat.add_0_r n) at 1. rewrite !Nx by lia. cbn [nth ext asA asT asM]. reflexivity.
  - apply obs_frame. intros r Hr. apply app_nth1. now apply B.
Qed.

(** without a copy (plain assignment y = x), in-place calls are visible through x *)
Definition only (w : who) (p : list call) : Prop := forall c, In c p -> target c = w.
Lemma prun_only_Y p : only Y p -> forall v, fst (prun v p) = fst v.
Proof.
  induction p as [|c p IH]; intros H v; [reflexivity|]. change (prun v (c :: p)) with (prun (pstep v c) p).
  rewrite IH by (intros d Hd; apply H; now right). unfold pstep. rewrite (H c (or_introl eq_refl)). reflexivity.
Qed.
Lemma prun_only_X p : only X p -> forall v, snd (prun v p) = snd v.
Proof.
  induction p as [|c p IH]; intros H v; [reflexivity|]. change (prun v (c :: p)) with (prun (pstep v c) p).
  rewrite IH by (intros d Hd; apply H; now right). unfold pstep. rewrite (H c (or_introl eq_refl)). reflexivity.
Qed.

Lemma copy_independent s x : owns s x ->
  let (s', y) := copy s x in
  let z := mkstate s' x y in
  obs s' y = obs s x /\
  (forall p, obs (st (run z p)) (ox (run z p)) = fst (prun (obs s x, obs s x) p) /\
             obs (st (run z p)) (oy (run z p)) = snd (prun (obs s x, obs s x) p)) /\
  (forall p, only Y p -> obs (st (run z p)) (ox (run z p)) = obs s x) /\
  (forall p, only X p -> obs (st (run z p)) (oy (run z p)) = obs s x).
Proof.
  intros O. pose proof (copy_spec s x O) as C. destruct (copy s x) as [s' y]. destruct C as (Sep & E1 & E2).
  cbv zeta. split; [exact E1|].
  assert (G : forall p, (obs (st (run (mkstate s' x y) p)) (ox (run (mkstate s' x y) p)),
     obs (st (run (mkstate s' x y) p)) (oy (run (mkstate s' x y) p))) = prun (obs s x, obs s x) p).
  { intros p. rewrite (run_refines p _ Sep). cbn [st ox oy]. now rewrite E1, E2. }
  split; [|split].
  - intros p. now rewrite <- G.
  - intros p H. pose proof (prun_only_Y p H (obs s x, obs s x)) as Q. rewrite <- G in Q. exact Q.
  - intros p H. pose proof (prun_only_X p H (obs s x, obs s x)) as Q. rewrite <- G in Q. exact Q.
Qed.
