(** NumPy arrays of rank 2 or 3 (rows x cols [x depth]) as shape plus index
    function.  Entries outside the shape carry no meaning: the only equality used
    in statements is [aeq] (same shape, same entries inside the shape). *)
From Verif Require Import Base.

Record arr (A : Type) := mkarr {
  rows : nat; cols : nat;
  depth : option nat;              (* None: rank 2;  Some n: rank 3, last axis n *)
  get : nat -> nat -> nat -> A     (* rank 2: last index is 0 *)
}.
Arguments mkarr {A}. Arguments rows {A}. Arguments cols {A}.
Arguments depth {A}. Arguments get {A}.

(** number of slices *)
Definition nslice {A} (a : arr A) : nat := match depth a with None => 1 | Some n => n end.
Definition inb {A} (a : arr A) (l m t : nat) : Prop := l < rows a /\ m < cols a /\ t < nslice a.
Definition same_shape {A B} (a : arr A) (b : arr B) : Prop :=
  rows a = rows b /\ cols a = cols b /\ depth a = depth b.
Definition aeq {A} (a b : arr A) : Prop :=
  same_shape a b /\ forall l m t, inb a l m t -> get a l m t = get b l m t.

Lemma aeq_refl {A} (a : arr A) : aeq a a.
Proof. split; [repeat split|auto]. Qed.
Lemma aeq_sym {A} (a b : arr A) : aeq a b -> aeq b a.
Proof.
  intros [(H1 & H2 & H3) H]. split; [repeat split; auto|].
  intros l m t (I1 & I2 & I3). symmetry. apply H. unfold inb, nslice in *. rewrite H1, H2, H3. auto.
Qed.
Lemma aeq_trans {A} (a b c : arr A) : aeq a b -> aeq b c -> aeq a c.
Proof.
  intros [(H1 & H2 & H3) H] [(K1 & K2 & K3) K]. split; [repeat split; congruence|].
  intros l m t I. rewrite H by exact I. apply K.
  destruct I as (I1 & I2 & I3). unfold inb, nslice in *. rewrite <- H1, <- H2, <- H3. auto.
Qed.

(** np.zeros *)
Definition full {A} (r c : nat) (d : option nat) (v : A) : arr A := mkarr r c d (fun _ _ _ => v).

(** elementwise map *)
Definition amap {A B} (f : A -> B) (a : arr A) : arr B :=
  mkarr (rows a) (cols a) (depth a) (fun l m t => f (get a l m t)).

(** [a[l0:l1, :m1] = new] pointwise; entries outside the block unchanged *)
Definition set_block {A} (a : arr A) (l0 l1 m1 : nat) (f : nat -> nat -> nat -> A) : arr A :=
  mkarr (rows a) (cols a) (depth a)
    (fun l m t => if (l0 <=? l) && (l <? l1) && (m <? m1) then f l m t else get a l m t).

(** [a[:,:,k] = new] *)
Definition set_slice {A} (a : arr A) (k : nat) (f : nat -> nat -> A) : arr A :=
  mkarr (rows a) (cols a) (depth a) (fun l m t => if t =? k then f l m else get a l m t).

(** [a[l,m,(all)] = new] *)
Definition set_lm {A} (a : arr A) (l0 m0 : nat) (f : nat -> A) : arr A :=
  mkarr (rows a) (cols a) (depth a)
    (fun l m t => if (l =? l0) && (m =? m0) then f t else get a l m t).

(** [a[:,:,k].copy()] *)
Definition slice {A} (a : arr A) (k : nat) : arr A := mkarr (rows a) (cols a) None (fun l m _ => get a l m k).
