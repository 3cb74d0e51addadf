(** C146: attributes of copies. *)
From Coq Require Import List Bool String Arith Lia.
From Verif Require Import Base AttrModel.
Import ListNotations.
Close Scope Z_scope.
Open Scope string_scope.
Open Scope nat_scope.

Lemma get_set : forall d k v q, getitem (setitem d k v) q = if String.eqb k q then Some v else getitem d q.
Proof.
  unfold getitem. induction d as [|[k' v'] d IH]; intros k v q; cbn [setitem find fst snd].
  - destruct (String.eqb k q); reflexivity.
  - destruct (String.eqb k' k) eqn:E; cbn [find fst snd].
    + apply String.eqb_eq in E. subst. destruct (String.eqb k q); reflexivity.
    + destruct (String.eqb k' q) eqn:F; [|apply IH]. destruct (String.eqb k q) eqn:G; [|reflexivity]. apply String.eqb_eq in F, G. subst. rewrite String.eqb_refl in E. discriminate.
Qed.
Lemma get_update : forall e d q, NoDup (map fst e) -> getitem (update d e) q = match getitem e q with Some v => Some v | None => getitem d q end.
Proof.
  unfold update. induction e as [|[k v] e IH]; intros d q H; [reflexivity|]. cbn [fold_left fst snd]. inversion H as [|? ? N D]; subst. rewrite IH by exact D. rewrite get_set.
  unfold getitem at 3. cbn [find fst snd]. destruct (String.eqb k q) eqn:E; [|reflexivity]. apply String.eqb_eq in E. subst.
  assert (X : getitem e q = None).
  { unfold getitem. destruct (find (fun p => String.eqb (fst p) q) e) as [p|] eqn:F; [|reflexivity]. apply find_some in F. destruct F as [I J]. apply String.eqb_eq in J. exfalso. apply N. subst. apply in_map. exact I. }
  rewrite X. reflexivity.
Qed.
Definition dict_at (h : heap) (o : nat) (d : list (string * value)) : Prop := o < next h /\ cells h o = CDict d /\ NoDup (map fst d).
Lemma copy_dict : forall h o d, dict_at h o d -> exists h', copy h o = (h', next h) /\ (forall b, b <> next h -> cells h' b = cells h b) /\ next h' = S (next h) /\
  exists e, cells h' (next h) = CDict e /\ forall q, getitem e q = getitem d q.
Proof.
  intros h o d (L & E & N). unfold copy, alloc. cbn [cells]. destruct (Nat.eqb_spec o (next h)) as [->|K]; [lia|]. rewrite E, Nat.eqb_refl.
  eexists. split; [reflexivity|]. cbn [store cells next]. split; [intros b B; destruct (Nat.eqb_spec b (next h)); [contradiction|]; reflexivity|]. split; [reflexivity|].
  rewrite Nat.eqb_refl. eexists. split; [reflexivity|]. intros q. rewrite get_update by exact N. destruct (getitem d q); reflexivity.
Qed.

(** A copy of an object with a dictionary of attributes shows the same attributes, and so does the original. *)
Theorem C146_copy : forall h o d h' c, dict_at h o d -> copy h o = (h', c) ->
  c <> o /\ (forall k, read h' c k = read h o k /\ read h' o k = read h o k) /\ (forall k k2 a, read h o k = Some (Ref a) -> a < next h -> read_nested h' c k k2 = read_nested h o k k2).
Proof.
  intros h o d h' c H E. pose proof H as (L & Ed & N). destruct (copy_dict _ _ _ H) as (h1 & E1 & F & _ & e & G & K). rewrite E1 in E. injection E as <- <-.
  assert (R : forall k, read h1 (next h) k = read h o k) by (intros k; unfold read; rewrite G, Ed; apply K).
  split; [lia|]. split.
  - intros k. split; [apply R|]. unfold read. rewrite F by lia. reflexivity.
  - intros k k2 a Ra La. unfold read_nested. rewrite R, Ra. unfold read. rewrite F by lia. reflexivity.
Qed.
(** Whatever attributes are set on the copy, those of the original stay; and the other way round. *)
Definition top (x : op) : Prop := exists k v, x = SetItem k v.
Theorem C146_set : forall h o d h' c l x y h2, dict_at h o d -> copy h o = (h', c) -> Forall top l -> (x = c /\ y = o \/ x = o /\ y = c) ->
  applies h' x l = Ok h2 -> forall k, read h2 y k = read h o k.
Proof.
  intros h o d h' c l x y h2 H E T XY A k. destruct (C146_copy _ _ _ _ _ H E) as (N & R & _).
  assert (Y : y <> x) by (destruct XY as [[-> ->]|[-> ->]]; auto). transitivity (read h' y k); [|destruct XY as [[-> ->]|[-> ->]]; apply R].
  clear R E H XY N. revert h' A. induction T as [|z l (q & v & ->) _ IH]; intros h1 A; cbn [applies] in A; [injection A as ->; reflexivity|].
  cbn [apply] in A. destruct (cells h1 x) as [m|m]; [discriminate|]. cbn [bind] in A. rewrite (IH _ A). unfold read, store. cbn [cells].
  destruct (Nat.eqb_spec y x); [contradiction|reflexivity].
Qed.
(** What is set is seen, and the other attributes of the same object stay. *)
Theorem C146_seen : forall h o k v h2, apply h o (SetItem k v) = Ok h2 -> read h2 o k = Some v /\ forall q, q <> k -> read h2 o q = read h o q.
Proof.
  intros h o k v h2 H. cbn [apply] in H. destruct (cells h o) as [l|d] eqn:E; [discriminate|]. injection H as <-. unfold read, store. cbn [cells]. rewrite Nat.eqb_refl, E.
  split; [rewrite get_set, String.eqb_refl; reflexivity|]. intros q N. rewrite get_set. apply not_eq_sym, String.eqb_neq in N. rewrite N. reflexivity.
Qed.
(** Every sequence of such settings is possible on the copy. *)
Theorem C146_set_possible : forall h o d h' c l, dict_at h o d -> copy h o = (h', c) -> Forall top l -> exists h2, applies h' c l = Ok h2.
Proof.
  intros h o d h' c l H E T. destruct (copy_dict _ _ _ H) as (h1 & E1 & _ & _ & e & G & _). rewrite E1 in E. injection E as <- <-.
  clear E1. generalize (next h), h1, e, G. clear - T. induction T as [|z l (q & v & ->) _ IH]; intros c h1 e G; cbn [applies apply]; [eauto|].
  rewrite G. cbn [bind]. eapply IH. cbn [store cells]. rewrite Nat.eqb_refl. reflexivity.
Qed.
(** The dictionaries inside (the attributes of the file, of a variable) are shared: what is set in the copy is also set in the original. *)
Theorem C146_nested_refuted : forall h o d h' c k a e k2 v, dict_at h o d -> getitem d k = Some (Ref a) -> a < next h -> a <> o -> cells h a = CDict e -> copy h o = (h', c) ->
  exists h2, apply h' c (SetNested k k2 v) = Ok h2 /\ read_nested h2 o k k2 = Some v /\ read_nested h2 c k k2 = Some v.
Proof.
  intros h o d h' c k a e k2 v H Hk La Na Ha E. pose proof H as (L & Ed & _). destruct (copy_dict _ _ _ H) as (h1 & E1 & F & _ & e1 & G & K). rewrite E1 in E. injection E as <- <-.
  cbn [apply]. rewrite G, K, Hk. rewrite (F a) by lia. rewrite Ha. eexists. split; [reflexivity|].
  assert (X : read (store h1 a (CDict (setitem e k2 v))) a k2 = Some v) by (unfold read, store; cbn [cells]; rewrite Nat.eqb_refl, get_set, String.eqb_refl; reflexivity).
  unfold read_nested. split.
  - assert (Y : read (store h1 a (CDict (setitem e k2 v))) o k = Some (Ref a)) by (unfold read, store; cbn [cells]; destruct (Nat.eqb_spec o a); [congruence|]; rewrite F by lia; rewrite Ed; exact Hk).
    rewrite Y. exact X.
  - assert (Y : read (store h1 a (CDict (setitem e k2 v))) (next h) k = Some (Ref a)) by (unfold read, store; cbn [cells]; destruct (Nat.eqb_spec (next h) a); [lia|]; rewrite G, K; exact Hk).
    rewrite Y. exact X.
Qed.
(** The list of attributes of a series is the same list in the copy: what is appended to one appears in the other. *)
Theorem C146_list_refuted : forall h o l v h' c, o < next h -> cells h o = CList l -> copy h o = (h', c) ->
  c = o /\ exists h2, apply h' c (Append v) = Ok h2 /\ cells h2 o = CList (l ++ [v])%list.
Proof.
  intros h o l v h' c L E H. unfold copy, alloc in H. cbn [cells] in H. destruct (Nat.eqb_spec o (next h)) as [->|K]; [lia|]. rewrite E in H. injection H as <- <-.
  split; [reflexivity|]. cbn [apply cells]. destruct (Nat.eqb_spec o (next h)); [contradiction|]. rewrite E. eexists. split; [reflexivity|]. cbn [store cells]. rewrite Nat.eqb_refl. reflexivity.
Qed.

(** Instance: an object read from a file, with the attributes of the file under ROOT. *)
Definition heap1 : heap := mkheap 2 (fun a => match a with 0 => CDict [("ROOT", Ref 1); ("name", Text "x")] | _ => CDict [("title", Text "GRACE")] end).
Example copy_instance : dict_at heap1 0 [("ROOT", Ref 1); ("name", Text "x")] /\
  exists h' c h2, copy heap1 0 = (h', c) /\ applies h' c [SetItem "name" (Text "y")] = Ok h2 /\ read h2 0 "name" = Some (Text "x") /\ read h2 c "name" = Some (Text "y").
Proof.
  split; [split; [cbn; lia|]; split; [reflexivity|]; cbn; repeat constructor; cbn; intuition discriminate|]. do 3 eexists. split; [reflexivity|]. split; [reflexivity|]. split; reflexivity.
Qed.
Example nested_instance : exists h' c h2, copy heap1 0 = (h', c) /\ apply h' c (SetNested "ROOT" "title" (Text "other")) = Ok h2 /\ read_nested h2 0 "ROOT" "title" = Some (Text "other").
Proof. do 3 eexists. split; [reflexivity|]. split; reflexivity. Qed.
