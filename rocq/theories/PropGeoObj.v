(** C136: loops over geocenter objects and their dictionaries (model: GeoObjModel.v). *)
From Coq Require Import Reals Lia ZifyBool ZifyNat.
From Verif Require Import Base TimeModel HarmModel ObjModel GeoObjModel.
Close Scope Z_scope.
Close Scope R_scope.
Open Scope nat_scope.

Lemma name_eqb_ok a b : name_eqb a b = true <-> a = b.
Proof. split; [destruct a, b; intros H; try discriminate H; reflexivity|intros <-; destruct a; reflexivity]. Qed.

(** ** loops *)
(** date, month and the three coefficients are series *)
Definition series (o : gobj) (f : name -> list R) : Prop := forall k, In k next_fields -> attr o k = Some (TArr (f k)).
Definition shortest (f : name -> list R) : nat := fold_right Nat.min (length (f Ntime)) (map (fun k => length (f k)) next_fields).
(** the object of epoch k: numbers; nothing else of the series *)
Definition is_epoch (r : R) (f : name -> list R) (k : nat) (g : gobj) : Prop :=
  (forall a, In a next_fields -> exists x, nth_error (f a) k = Some x /\ attr g a = Some (TScalar x))
  /\ (forall a, ~ In a next_fields -> attr g a = attr (new_geocenter r) a) /\ rad g = r.
Lemma shortest_ok f : shortest f = Nat.min (length (f Ntime)) (Nat.min (length (f Nmonth)) (Nat.min (length (f NC10)) (Nat.min (length (f NC11)) (length (f NS11))))).
Proof. unfold shortest. cbn. lia. Qed.
Lemma item_ok o f a : series o f -> In a next_fields -> item o a = match nth_error (f a) (index o) with Some x => Ok x | None => Err IndexError end.
Proof. intros S I. unfold item. rewrite (S a I). reflexivity. Qed.
Lemma next_in r o f : series o f -> index o < shortest f -> exists g, next r o = Ok (Some (g, mkg (attr o) (S (index o)) (rad o))) /\ is_epoch r f (index o) g.
Proof.
  intros SE L. rewrite shortest_ok in L.
  assert (E : forall a, In a next_fields -> exists x, nth_error (f a) (index o) = Some x /\ item o a = Ok x).
  { intros a I. assert (B : index o < length (f a)) by (cbn in I; destruct I as [<-|[<-|[<-|[<-|[<-|[]]]]]]; lia). rewrite (item_ok o f a SE I). destruct (nth_error (f a) (index o)) as [x|] eqn:N; [exists x; split; reflexivity|]. apply nth_error_None in N. lia. }
  destruct (E Ntime ltac:(cbn; tauto)) as (t & T1 & T2). destruct (E Nmonth ltac:(cbn; tauto)) as (m & M1 & M2). destruct (E NC10 ltac:(cbn; tauto)) as (a & A1 & A2).
  destruct (E NC11 ltac:(cbn; tauto)) as (b & B1 & B2). destruct (E NS11 ltac:(cbn; tauto)) as (c & C1 & C2).
  unfold next, epoch. rewrite T2, M2, A2, B2, C2. cbn [bind]. eexists. split; [reflexivity|]. split; [|split; [|reflexivity]].
  - intros k I. cbn in I. destruct I as [<-|[<-|[<-|[<-|[<-|[]]]]]]; eexists; (split; [eassumption|reflexivity]).
  - intros k N. destruct k; try reflexivity; exfalso; apply N; cbn; tauto.
Qed.
Lemma next_out r o f : series o f -> shortest f <= index o -> next r o = Ok None.
Proof.
  intros SE L. rewrite shortest_ok in L.
  assert (E : forall a, In a next_fields -> item o a = Err IndexError \/ exists x, item o a = Ok x) by (intros a I; rewrite (item_ok o f a SE I); destruct (nth_error (f a) (index o)) as [x|]; [right; exists x|left]; reflexivity).
  unfold next, epoch.
  destruct (E Ntime ltac:(cbn; tauto)) as [->|[t T]]; [reflexivity|]. rewrite T. cbn [bind]. destruct (E Nmonth ltac:(cbn; tauto)) as [->|[m M]]; [reflexivity|]. rewrite M. cbn [bind].
  destruct (E NC10 ltac:(cbn; tauto)) as [->|[a A]]; [reflexivity|]. rewrite A. cbn [bind]. destruct (E NC11 ltac:(cbn; tauto)) as [->|[b B]]; [reflexivity|]. rewrite B. cbn [bind].
  destruct (E NS11 ltac:(cbn; tauto)) as [->|[c C]]; [reflexivity|]. exfalso.
  assert (X : forall a x, In a next_fields -> item o a = Ok x -> index o < length (f a)).
  { intros k x I H. rewrite (item_ok o f k SE I) in H. apply nth_error_Some. destruct (nth_error (f k) (index o)); [discriminate|discriminate H]. }
  pose proof (X Ntime _ ltac:(cbn; tauto) T). pose proof (X Nmonth _ ltac:(cbn; tauto) M). pose proof (X NC10 _ ltac:(cbn; tauto) A). pose proof (X NC11 _ ltac:(cbn; tauto) B). pose proof (X NS11 _ ltac:(cbn; tauto) C). lia.
Qed.
Lemma steps_ok r f : forall n o fuel, series o f -> index o + n = shortest f -> n < fuel ->
  exists xs, steps fuel r o = Ok (Some (xs, mkg (attr o) (index o + n) (rad o))) /\ length xs = n /\ forall k g, nth_error xs k = Some g -> is_epoch r f (index o + k) g.
Proof.
  induction n as [|n IH]; intros o fuel SE L B; (destruct fuel as [|fuel]; [lia|]); cbn [steps].
  - rewrite (next_out r o f SE) by lia. cbn [bind]. exists []. destruct o as [a i q]. cbn [attr index rad]. rewrite Nat.add_0_r. split; [reflexivity|]. split; [reflexivity|]. intros [|k] g H; discriminate H.
  - destruct (next_in r o f SE) as (g & E & G); [lia|]. rewrite E. cbn [bind].
    destruct (IH (mkg (attr o) (S (index o)) (rad o)) fuel) as (xs & X & LX & P); [exact SE|cbn [index]; lia|lia|]. rewrite X. cbn [bind attr index rad] in *. exists (g :: xs). split; [do 4 f_equal; lia|]. split; [cbn [length]; lia|].
    intros [|k] g' H; cbn [nth_error] in H; [injection H as <-; rewrite Nat.add_0_r; exact G|]. replace (index o + S k) with (S (index o) + k) by lia. exact (P k g' H).
Qed.
(** a loop gives the epochs one after the other, as numbers in objects that have nothing else of the series (errors and coordinates are missing, the radius is the default one);
    wherever earlier loops were left, it starts at the first epoch.  It takes as many steps as the shortest of the five series has values, without a message *)
Theorem C136_loop : forall r o f fuel, series o f -> shortest f < fuel ->
  exists xs, for_loop fuel r o = Ok (Some (xs, mkg (attr o) (shortest f) (rad o))) /\ length xs = shortest f /\ forall k g, nth_error xs k = Some g -> is_epoch r f k g.
Proof. intros r o f fuel SE B. unfold for_loop. destruct (steps_ok r f (shortest f) (iter_start o) fuel) as (xs & E & L & P); [exact SE|reflexivity|exact B|]. exists xs. split; [exact E|]. split; [exact L|exact P]. Qed.
(** refuted: an object of one date, whose date is a number, gives no step *)
Theorem C136_single : forall r o x fuel, attr o Ntime = Some (TScalar x) -> 0 < fuel -> for_loop fuel r o = Ok (Some ([], iter_start o)).
Proof. intros r o x [|fuel] E B; [lia|]. unfold for_loop. cbn [steps]. unfold next, epoch, item. cbn [iter_start attr]. rewrite E. reflexivity. Qed.
(** a new object has no dates: TypeError *)
Theorem C136_new : forall r fuel, 0 < fuel -> for_loop fuel r (new_geocenter r) = Err TypeError.
Proof. intros r [|fuel] B; [lia|reflexivity]. Qed.
(** refuted: a loop inside a loop over the same object ends the outer one after its first step *)
Theorem C136_nested : forall r o f fuel inner, series o f -> 0 < shortest f -> 1 < fuel -> shortest f < inner ->
  exists g ys, nested fuel inner r o = Ok (Some [(g, ys)]) /\ length ys = shortest f /\ is_epoch r f 0 g.
Proof.
  intros r o f [|[|fuel]] inner SE P B1 B2; try lia. unfold nested. cbn [outer]. destruct (next_in r (iter_start o) f) as (g & E & G); [exact SE|exact P|]. rewrite E. cbn [bind].
  destruct (C136_loop r (mkg (attr (iter_start o)) (S (index (iter_start o))) (rad (iter_start o))) f inner) as (ys & L & LY & _); [exact SE|exact B2|]. rewrite L. cbn [bind].
  rewrite (next_out r _ f); [|exact SE|cbn [index]; lia]. cbn [bind option_map]. exists g, ys. split; [reflexivity|]. split; [exact LY|exact G].
Qed.

(** ** dictionaries *)
Definition kept (v : option (tval R)) : bool := match v with Some (TScalar _) | Some (TArr _) => true | _ => false end.
Lemma from_dict_ok : forall fields d o k, attr (from_dict fields d o) k = (if (existsb (name_eqb k) fields && kept (d k))%bool then d k else attr o k)
  /\ rad (from_dict fields d o) = rad o /\ index (from_dict fields d o) = index o.
Proof.
  induction fields as [|a t IH]; intros d o k; [repeat split; reflexivity|]. cbn [from_dict existsb].
  destruct (IH d (match d a with Some (TScalar x) => set_attr o a (TScalar x) | Some (TArr l) => set_attr o a (TArr l) | _ => o end) k) as (E1 & E2 & E3). rewrite E1, E2, E3. split; [|split; destruct (d a) as [[|x|l]|]; reflexivity].
  destruct (existsb (name_eqb k) t); [destruct (kept (d k)) eqn:K; cbn [andb orb]; rewrite ?orb_true_r; cbn [andb]; [reflexivity|]|rewrite orb_false_r; cbn [andb]].
  - destruct (d a) as [[|x|l]|] eqn:D; try reflexivity; cbn [set_attr attr]; destruct (name_eqb k a) eqn:N; try reflexivity; apply name_eqb_ok in N; subst a; rewrite D in K; discriminate K.
  - destruct (name_eqb k a) eqn:N; cbn [andb].
    + apply name_eqb_ok in N. subst a. unfold kept. destruct (d k) as [[|x|l]|] eqn:D; try reflexivity; cbn [set_attr attr]; assert (N : name_eqb k k = true) by (apply name_eqb_ok; reflexivity); rewrite N; reflexivity.
    + destruct (d a) as [[|x|l]|]; try reflexivity; cbn [set_attr attr]; rewrite N; reflexivity.
Qed.
(** every number and series of an object comes back from its dictionary; what is None or absent there is left as it is in the object that reads; so is its radius *)
Theorem C136_dictionary : forall o o' k, attr (from_dict dict_fields (to_dict dict_fields o) o') k = (if kept (attr o k) then attr o k else attr o' k)
  /\ rad (from_dict dict_fields (to_dict dict_fields o) o') = rad o'.
Proof.
  intros o o' k. destruct (from_dict_ok dict_fields (to_dict dict_fields o) o' k) as (E & R & _). split; [|exact R]. rewrite E. unfold to_dict. assert (A : existsb (name_eqb k) dict_fields = true) by (destruct k; reflexivity). rewrite A. reflexivity.
Qed.
(** any list of fields: the dictionary has the attributes of the object that are in the list, and only those are read back *)
Theorem C136_fields : forall fields o o' k,
  (In k fields -> to_dict fields o k = attr o k) /\ (~ In k fields -> to_dict fields o k = None /\ attr (from_dict fields (to_dict fields o) o') k = attr o' k)
  /\ (In k fields -> attr (from_dict fields (to_dict fields o) o') k = (if kept (attr o k) then attr o k else attr o' k)).
Proof.
  intros fields o o' k. assert (B : forall a b, name_eqb a b = true <-> a = b) by (intros a b; split; [destruct a, b; intros H; try discriminate H; reflexivity|intros ->; destruct b; reflexivity]).
  destruct (from_dict_ok fields (to_dict fields o) o' k) as (E & _ & _). assert (I : existsb (name_eqb k) fields = true <-> In k fields).
  { rewrite existsb_exists. split; [intros (x & H & Q); apply B in Q; subst; exact H|intros H; exists k; split; [exact H|apply B; reflexivity]]. }
  unfold to_dict in *. split; [intros H; apply I in H; rewrite H; reflexivity|]. split.
  - intros N. assert (F : existsb (name_eqb k) fields = false) by (apply not_true_iff_false; rewrite I; exact N). rewrite E, F. split; reflexivity.
  - intros H. apply I in H. rewrite E, H. reflexivity.
Qed.
Print Assumptions C136_fields.
(** a new object has no attributes for errors: reading one is an AttributeError, and the dictionary of a new object has no key for it *)
Theorem C136_new_object : forall r k, (In k [NeC10; NeC11; NeS11; NXs; NYs; NZs] -> attr (new_geocenter r) k = None /\ to_dict dict_fields (new_geocenter r) k = None) /\
  (~ In k [NeC10; NeC11; NeS11; NXs; NYs; NZs] -> attr (new_geocenter r) k = Some TNone /\ to_dict dict_fields (new_geocenter r) k = Some TNone).
Proof. intros r k. split; intros H; destruct k; cbn in *; try (split; reflexivity); exfalso; intuition discriminate. Qed.
Print Assumptions C136_new_object.
(** so a new object gets all that the object held *)
Theorem C136_new_from_dictionary : forall o r k v, attr o k = Some v -> v <> TNone -> attr (from_dict dict_fields (to_dict dict_fields o) (new_geocenter r)) k = Some v.
Proof. intros o r k v E N. rewrite (proj1 (C136_dictionary o (new_geocenter r) k)), E. destruct v; [contradiction|reflexivity|reflexivity]. Qed.
(** refuted: an object that held something else keeps what the dictionary lacks: the errors (or coordinates) are those of the old series *)
Theorem C136_stale : forall o o' k, kept (attr o k) = false -> attr (from_dict dict_fields (to_dict dict_fields o) o') k = attr o' k.
Proof. intros o o' k E. rewrite (proj1 (C136_dictionary o o' k)), E. reflexivity. Qed.

(** the hypotheses are met: two dates; months of different length; an old error *)
Definition two_dates : gobj := mkg (fun k => match k with Ntime => Some (TArr [2002; 2003]%R) | Nmonth => Some (TArr [1; 13]%R) | NC10 | NC11 | NS11 => Some (TArr [5; 6; 7]%R) | NX | NY | NZ => Some TNone | _ => None end) 1 1%R.
Example C136_meets : exists f, series two_dates f /\ shortest f = 2 /\ kept (attr two_dates NeC10) = false
  /\ (exists xs o, for_loop 3 1%R two_dates = Ok (Some (xs, o)) /\ length xs = 2)
  /\ attr (from_dict dict_fields (to_dict dict_fields two_dates) (mkg (fun _ => Some (TArr [9]%R)) 0 1%R)) NeC10 = Some (TArr [9]%R).
Proof.
  exists (fun k => match k with Ntime => [2002; 2003]%R | Nmonth => [1; 13]%R | _ => [5; 6; 7]%R end). split; [intros k I; cbn in I; destruct I as [<-|[<-|[<-|[<-|[<-|[]]]]]]; reflexivity|].
  split; [reflexivity|]. split; [reflexivity|]. split; [eexists _, _; split; reflexivity|]. reflexivity.
Qed.
