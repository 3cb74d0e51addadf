(** Common vocabulary: Python exceptions as values, Python indexing. *)
From Coq Require Export List Arith ZArith Lia Bool.
Export ListNotations.
Set Implicit Arguments.

(** Exceptions that the modelled Python code can raise. *)
Inductive exn : Type :=
| ValueError | IndexError | KeyError | TypeError | AttributeError
| UnboundLocalError | ZeroDivision | IOErr | FileNotFound | AssertionErr | OtherExn.

(** Outcome of a Python call: a value or a raised exception. *)
Inductive res (A : Type) : Type :=
| Ok  (a : A)
| Err (e : exn).
Arguments Ok {A} a.
Arguments Err {A} e.

Definition bind {A B} (x : res A) (f : A -> res B) : res B :=
  match x with Ok a => f a | Err e => Err e end.
Notation "'do' x <- e ; f" := (bind e (fun x => f))
  (at level 200, x pattern, e at level 100, f at level 200, right associativity).

Definition is_ok {A} (x : res A) : bool := match x with Ok _ => true | Err _ => false end.

(** [l[i]] of Python: negative indices count from the end, anything outside
    raises IndexError. *)
Definition py_get {A} (l : list A) (i : Z) : res A :=
  let n := Z.of_nat (length l) in
  let k := if (i <? 0)%Z then (i + n)%Z else i in
  if ((0 <=? k) && (k <? n))%Z
  then match nth_error l (Z.to_nat k) with Some a => Ok a | None => Err IndexError end
  else Err IndexError.

(** [l[i] = v] on an index known to be in range. *)
Fixpoint upd {A} (l : list A) (i : nat) (v : A) : list A :=
  match l, i with
  | [], _ => []
  | _ :: t, O => v :: t
  | x :: t, S j => x :: upd t j v
  end.

Lemma upd_length A (l : list A) i v : length (upd l i v) = length l.
Proof. revert i; induction l as [|x t IH]; intros [|i]; cbn; auto. Qed.

Lemma upd_nth A (l : list A) i j v d :
  nth j (upd l i v) d = if Nat.eqb i j then (if Nat.ltb j (length l) then v else d) else nth j l d.
Proof.
  revert i j; induction l as [|x t IH]; intros i j.
  - cbn. destruct j, (Nat.eqb i _); reflexivity.
  - destruct i as [|i], j as [|j]; cbn; try reflexivity.
    rewrite IH. destruct (Nat.eqb i j); reflexivity.
Qed.

(** mapM in the exception monad (a Python for-loop that appends). *)
Fixpoint mapM {A B} (f : A -> res B) (l : list A) : res (list B) :=
  match l with
  | [] => Ok []
  | x :: t => do y <- f x; do ys <- mapM f t; Ok (y :: ys)
  end.

Lemma mapM_ok A B (f : A -> res B) l ys :
  mapM f l = Ok ys -> Forall2 (fun x y => f x = Ok y) l ys.
Proof.
  revert ys; induction l as [|x t IH]; cbn; intros ys H.
  - injection H as <-. constructor.
  - destruct (f x) as [y|e] eqn:E; cbn in H; [|discriminate].
    destruct (mapM f t) as [zs|e] eqn:E2; cbn in H; [|discriminate].
    injection H as <-. constructor; auto.
Qed.

Lemma mapM_total A B (f : A -> res B) l :
  (forall x, In x l -> exists y, f x = Ok y) -> exists ys, mapM f l = Ok ys.
Proof.
  induction l as [|x t IH]; intros H; cbn; [eauto|].
  destruct (H x (or_introl eq_refl)) as [y ->]; cbn.
  destruct IH as [ys ->]; [intros z Hz; apply H; now right|]. cbn; eauto.
Qed.

Lemma Forall2_impl A B (P Q : A -> B -> Prop) l l' :
  (forall a b, P a b -> Q a b) -> Forall2 P l l' -> Forall2 Q l l'.
Proof. intros H; induction 1; constructor; auto. Qed.

Lemma NoDup_app_intro A (l1 l2 : list A) :
  NoDup l1 -> NoDup l2 -> (forall x, In x l1 -> In x l2 -> False) -> NoDup (l1 ++ l2).
Proof.
  induction 1 as [|x l1 Hx H IH]; cbn; intros H2 Hd; [exact H2|].
  constructor.
  - rewrite in_app_iff. intros [H3|H3]; [contradiction|]. apply (Hd x); [now left|exact H3].
  - apply IH; [exact H2|]. intros y Hy. apply Hd. now right.
Qed.
