(** Memory model for [spatial.copy], [flip] and [transpose] (spatial.py:1182-1202,
    1503-1550): np.flip and np.transpose return views, so the data and mask
    arrays of the result are the buffers of the original read through an index
    permutation.  [update_mask], [replace_invalid] and [mean(apply=True)] write
    in place.  Only [data] and [mask] are modelled here (error behaves like
    data). *)
From Coq Require Import Reals ZifyBool ZifyNat.
From Verif Require Import Base TimeModel Arr HarmModel AdjustProofs HarmProofs SpatialModel SpatialSpec SpatialProofs SpatialProofs2.
Close Scope Z_scope.
Open Scope nat_scope.

(** how an array attribute reads its buffer *)
Inductive view := Direct | Flipped (ax : axis) | Transposed.
Definition through {A} (v : view) (a : arr A) : arr A :=
  match v with Direct => a | Flipped ax => gflip ax a | Transposed => gtrans a end.

Record vstore := mkvs { dbuf : list (arr val); mbuf : list (arr bool) }.
Record vobj := mkvo { rd : nat; rm : nat; via : view; ofill : option val }.
Definition nod : arr val := full 0 0 None None.
Definition nom : arr bool := full 0 0 None false.
(** the attributes data and mask as a user reads them *)
Definition odata (s : vstore) (o : vobj) : arr val := through (via o) (nth (rd o) (dbuf s) nod).
Definition omask (s : vstore) (o : vobj) : arr bool := through (via o) (nth (rm o) (mbuf s) nom).

(** an in-place method computes new contents of data and mask from the old ones;
    flips and transpositions are their own inverse, so writing through the view
    stores the permuted contents *)
Definition method := option val -> arr val -> arr bool -> arr val * arr bool.
Definition in_place (m : method) (s : vstore) (o : vobj) : vstore :=
  let (d, k) := m (ofill o) (odata s o) (omask s o) in
  mkvs (upd (dbuf s) (rd o) (through (via o) d)) (upd (mbuf s) (rm o) (through (via o) k)).

(** lines 1170-1180 *)
Definition m_update_mask : method := fun fill d k =>
  match fill with
  | None => (d, k)
  | Some f => let k' := mkarr (rows d) (cols d) (depth d) (fun i j t => get k i j t || veqb (get d i j t) f || isnan (get d i j t)) in
              (masked_set k' f d, k')
  end.
(** lines 1621-1648 without mask argument *)
Definition m_replace_invalid (f : val) : method := fun fill d k =>
  let (d1, k1) := m_update_mask fill d k in (masked_set k1 f d1, k1).
(** lines 1650-1658 *)
Definition m_replace_masked : method := fun fill d k => match fill with None => (d, k) | Some f => (masked_set k f d, k) end.

(** lines 1182-1202 *)
Definition v_copy (s : vstore) (o : vobj) : vstore * vobj :=
  let s1 := mkvs (dbuf s ++ [odata s o]) (mbuf s ++ [omask s o]) in
  let r := mkvo (length (dbuf s)) (length (mbuf s)) Direct (ofill o) in
  (in_place m_replace_masked s1 r, r).
(** lines 1503-1529, 1531-1550 of an object that owns its buffers *)
Definition v_view (v : view) (s : vstore) (o : vobj) : vstore * vobj :=
  let r := mkvo (rd o) (rm o) v (ofill o) in
  (in_place m_update_mask s r, r).

Definition keeps_shape (m : method) : Prop := forall f d k, same_shape k d ->
  same_shape (fst (m f d k)) d /\ same_shape (snd (m f d k)) d.
Definition owned (s : vstore) (o : vobj) : Prop := via o = Direct /\ rd o < length (dbuf s) /\ rm o < length (mbuf s) /\ same_shape (omask s o) (odata s o).

Lemma um_keeps : keeps_shape m_update_mask.
Proof. intros [f|] d k H; cbn; [split; repeat split|split; [repeat split|exact H]]. Qed.
Lemma ri_keeps f : keeps_shape (m_replace_invalid f).
Proof.
  intros g d k H. pose proof (um_keeps g d k H) as [H1 H2]. unfold m_replace_invalid. destruct (m_update_mask g d k) as [d1 k1]. cbn in *.
  split; [|exact H2]. destruct H1 as (A & B & C). repeat split; assumption.
Qed.

Lemma gtrans_gtrans {A} (a : arr A) : aeq (gtrans (gtrans a)) a.
Proof. split; [repeat split|]. intros; reflexivity. Qed.
Lemma through_inv {A} v (a : arr A) : aeq (through v (through v a)) a.
Proof. destruct v; [apply aeq_refl|apply gflip_gflip|apply gtrans_gtrans]. Qed.
Lemma through_aeq {A} v (a b : arr A) : aeq a b -> aeq (through v a) (through v b).
Proof.
  intros H. destruct v; [exact H|now apply gflip_aeq|]. destruct H as [(H1 & H2 & H3) H]. split; [repeat split; assumption|].
  intros i j t (I1 & I2 & I3). cbn in *. apply H. repeat split; assumption.
Qed.
Lemma through_shape {A B} v (a : arr A) (b : arr B) : same_shape a b -> same_shape (through v a) (through v b).
Proof.
  intros H. destruct v; cbn [through]; [exact H| |destruct H as (H1 & H2 & H3); repeat split; assumption].
  eapply same_shape_trans; [apply gflip_shape|]. eapply same_shape_trans; [exact H|]. apply same_shape_sym, gflip_shape.
Qed.
Lemma nth_upd_same {A} (l : list A) n x d : n < length l -> nth n (upd l n x) d = x.
Proof. revert n. induction l as [|y l IH]; intros [|n] H; cbn in *; try lia; auto. apply IH. lia. Qed.
Lemma nth_upd_other {A} (l : list A) n k x d : n <> k -> nth k (upd l n x) d = nth k l d.
Proof. revert n k. induction l as [|y l IH]; intros [|n] [|k] H; cbn; try congruence; auto. Qed.

(** objects that share buffers *)
Lemma in_place_obs m s o : rd o < length (dbuf s) -> rm o < length (mbuf s) ->
  aeq (odata (in_place m s o) o) (fst (m (ofill o) (odata s o) (omask s o))) /\
  aeq (omask (in_place m s o) o) (snd (m (ofill o) (odata s o) (omask s o))).
Proof.
  intros H1 H2. unfold in_place, odata, omask in *. destruct (m _ _ _) as [d k]. cbn [dbuf mbuf fst snd].
  rewrite !nth_upd_same by assumption. split; apply through_inv.
Qed.
Lemma in_place_length m s o : length (dbuf (in_place m s o)) = length (dbuf s) /\ length (mbuf (in_place m s o)) = length (mbuf s).
Proof. unfold in_place. destruct (m _ _ _). cbn. now rewrite !upd_length. Qed.
Lemma in_place_frame m s o p : rd o <> rd p -> rm o <> rm p -> odata (in_place m s o) p = odata s p /\ omask (in_place m s o) p = omask s p.
Proof.
  intros H1 H2. unfold in_place, odata, omask. destruct (m _ _ _). cbn [dbuf mbuf]. now rewrite !nth_upd_other by assumption.
Qed.

(** any sequence of in-place calls on either object *)
Inductive who := Original | Result.
Definition vrun (o r : vobj) (s : vstore) (p : list (who * method)) : vstore :=
  fold_left (fun s c => in_place (snd c) s (match fst c with Original => o | Result => r end)) p s.
Lemma vrun_length o r p : forall s, length (dbuf (vrun o r s p)) = length (dbuf s) /\ length (mbuf (vrun o r s p)) = length (mbuf s).
Proof.
  induction p as [|c p IH]; intros s; [split; reflexivity|]. cbn [vrun fold_left]. fold (vrun o r (in_place (snd c) s (match fst c with Original => o | Result => r end)) p).
  destruct (IH (in_place (snd c) s (match fst c with Original => o | Result => r end))) as [-> ->]. apply in_place_length.
Qed.

(** flip and transpose: the two objects always show the same cells *)
Lemma view_shared v s o p : owned s o -> let (s1, r) := v_view v s o in
  aeq (odata (vrun o r s1 p) r) (through v (odata (vrun o r s1 p) o)) /\ aeq (omask (vrun o r s1 p) r) (through v (omask (vrun o r s1 p) o)).
Proof.
  intros (V & H1 & H2 & _). unfold v_view. unfold odata, omask. rewrite V. cbn [rd rm via through]. split; apply aeq_refl.
Qed.

Lemma copy_frame s o p : owned s o -> Forall (fun c => fst c = Result) p -> let (s1, r) := v_copy s o in
  odata (vrun o r s1 p) o = odata s o /\ omask (vrun o r s1 p) o = omask s o.
Proof.
  intros (V & H1 & H2 & _) Hp. unfold v_copy. set (r := mkvo _ _ _ _). set (s0 := mkvs _ _).
  assert (G : forall q s', odata (vrun o r s' q) o = odata s' o /\ omask (vrun o r s' q) o = omask s' o \/ ~ Forall (fun c => fst c = Result) q).
  { induction q as [|c q IH]; intros s'; [left; split; reflexivity|].
    destruct c as [[|] m]; [right; intros F; inversion F; discriminate|].
    destruct (IH (in_place m s' r)) as [[E1 E2]|N]; [left|right; intros F; inversion F; auto].
    change (vrun o r s' ((Result, m) :: q)) with (vrun o r (in_place m s' r) q). rewrite E1, E2. apply in_place_frame; cbn [r rd rm]; lia. }
  destruct (G p (in_place m_replace_masked s0 r)) as [[E1 E2]|N]; [|contradiction]. rewrite E1, E2.
  destruct (in_place_frame m_replace_masked s0 r o) as [-> ->]; [cbn [r rd]; lia|cbn [r rm]; lia|].
  unfold odata, omask, s0. cbn [dbuf mbuf]. now rewrite !app_nth1 by assumption.
Qed.

(** replacing the fill value of a flipped (transposed) object rewrites the
    original's masked cells *)
Lemma view_replace_invalid v s o f f' : owned s o -> ofill o = Some f -> let (s1, r) := v_view v s o in
  let s2 := in_place (m_replace_invalid f') s1 r in
  forall i j t, inb (odata s o) i j t -> get (omask s o) i j t = true ->
     get (omask s2 o) i j t = true /\ get (odata s2 o) i j t = f'.
Proof.
  intros (V & H1 & H2 & SH) F. unfold v_view. set (r := mkvo _ _ _ _). set (s1 := in_place m_update_mask s r). cbv zeta.
  set (s2 := in_place (m_replace_invalid f') s1 r). intros i j t Hin Hm.
  assert (L1 : rd r < length (dbuf s1)) by (unfold s1; destruct (in_place_length m_update_mask s r) as [-> _]; exact H1).
  assert (L2 : rm r < length (mbuf s1)) by (unfold s1; destruct (in_place_length m_update_mask s r) as [_ ->]; exact H2).
  (* what the original shows is the flipped view of what the result shows *)
  assert (B1 : aeq (odata s2 o) (through v (odata s2 r))).
  { unfold odata. rewrite V. cbn [r rd via through]. apply aeq_sym, through_inv. }
  assert (B2 : aeq (omask s2 o) (through v (omask s2 r))).
  { unfold omask. rewrite V. cbn [r rm via through]. apply aeq_sym, through_inv. }
  destruct (in_place_obs (m_replace_invalid f') s1 r L1 L2) as [C1 C2]. fold s2 in C1, C2.
  destruct (in_place_obs m_update_mask s r H1 H2) as [D1 D2]. fold s1 in D1, D2.
  change (ofill r) with (ofill o) in C1, C2, D1, D2. rewrite F in C1, C2, D1, D2. cbn [m_update_mask m_replace_invalid fst snd] in C1, C2, D1, D2.
  assert (RM0 : omask s r = through v (omask s o)) by (unfold omask; rewrite V; reflexivity).
  assert (RD0 : odata s r = through v (odata s o)) by (unfold odata; rewrite V; reflexivity).
  (* index of the cell in the result *)
  assert (IX : exists i' j' t', (forall (A : Type) (a : arr A), same_shape a (odata s o) -> get (through v a) i' j' t' = get a i j t) /\
     (forall (A : Type) (a : arr A), same_shape a (through v (odata s o)) -> get (through v a) i j t = get a i' j' t') /\
     inb (through v (odata s o)) i' j' t').
  { destruct v as [|ax|].
    - exists i, j, t. repeat split; auto; apply Hin.
    - destruct (fidx ax (odata s o) i j t) as [[i' j'] t'] eqn:Q. exists i', j', t'. cbn [through].
      assert (inb (odata s o) i' j' t') as Hin'. { pose proof (fidx_inb ax (odata s o) i j t Hin) as X. rewrite Q in X. exact X. }
      split; [|split].
      + intros A a Sa. rewrite gflip_get, (fidx_shape ax a (odata s o) _ _ _ Sa).
        assert (fidx ax (odata s o) i' j' t' = (i, j, t)) as ->; [|reflexivity].
        destruct Hin as (K1 & K2 & K3). unfold nslice in K3. unfold fidx in Q |- *. destruct ax; injection Q as <- <- <-; try (repeat f_equal; lia).
        destruct (depth (odata s o)); repeat f_equal; lia.
      + intros A a Sa. rewrite gflip_get. rewrite (fidx_shape ax a (odata s o) i j t) by (eapply same_shape_trans; [exact Sa|apply gflip_shape]). now rewrite Q.
      + eapply same_shape_inb; [|exact Hin']. apply same_shape_sym, gflip_shape.
    - exists j, i, t. cbn [through]. split; [reflexivity|]. split; [reflexivity|]. destruct Hin as (K1 & K2 & K3). repeat split; assumption. }
  destruct IX as (i' & j' & t' & X1 & X2 & X3).
  assert (S0 : same_shape (odata s r) (through v (odata s o))) by (rewrite RD0; repeat split).
  assert (S1 : same_shape (odata s1 r) (through v (odata s o))).
  { destruct D1 as [D1 _]. eapply same_shape_trans; [exact D1|]. eapply same_shape_trans; [|exact S0]. repeat split. }
  assert (S2 : same_shape (odata s2 r) (through v (odata s o))).
  { destruct C1 as [C1 _]. eapply same_shape_trans; [exact C1|]. eapply same_shape_trans; [|exact S1]. repeat split. }
  assert (S2m : same_shape (omask s2 r) (through v (odata s o))).
  { destruct C2 as [C2 _]. eapply same_shape_trans; [exact C2|]. eapply same_shape_trans; [|exact S1]. repeat split. }
  assert (S1m : same_shape (omask s1 r) (through v (odata s o))).
  { destruct D2 as [D2 _]. eapply same_shape_trans; [exact D2|]. eapply same_shape_trans; [|exact S0]. repeat split. }
  assert (I1 : inb (omask s1 r) i' j' t') by (eapply same_shape_inb; [apply same_shape_sym; exact S1m|exact X3]).
  assert (M1 : get (omask s1 r) i' j' t' = true).
  { destruct D2 as [_ D2]. rewrite D2 by exact I1. cbn [get]. rewrite RM0, X1 by exact SH. rewrite Hm. reflexivity. }
  assert (BI : inb (odata s2 o) i j t).
  { destruct B1 as [B1 _]. eapply same_shape_inb; [apply same_shape_sym; exact B1|].
    eapply same_shape_inb; [apply same_shape_sym, (through_shape v _ _ S2)|]. eapply same_shape_inb; [apply same_shape_sym, (through_inv v (odata s o))|exact Hin]. }
  assert (BI' : inb (omask s2 o) i j t).
  { destruct B2 as [B2 _]. eapply same_shape_inb; [apply same_shape_sym; exact B2|].
    eapply same_shape_inb; [apply same_shape_sym, (through_shape v _ _ S2m)|]. eapply same_shape_inb; [apply same_shape_sym, (through_inv v (odata s o))|exact Hin]. }
  assert (I2 : inb (odata s2 r) i' j' t') by (eapply same_shape_inb; [apply same_shape_sym; exact S2|exact X3]).
  assert (I2m : inb (omask s2 r) i' j' t') by (eapply same_shape_inb; [apply same_shape_sym; exact S2m|exact X3]).
  destruct B1 as [_ B1], B2 as [_ B2], C1 as [_ C1], C2 as [_ C2].
  rewrite B1, B2 by assumption. rewrite (X2 _ (odata s2 r)) by exact S2. rewrite (X2 _ (omask s2 r)) by exact S2m. rewrite C1, C2 by assumption. cbn [masked_set get]. rewrite M1. split; reflexivity.
Qed.
