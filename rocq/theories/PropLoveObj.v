(** C135: objects of Love numbers share their arrays with dictionaries and other objects (model: LoveObjModel.v). *)
From Coq Require Import Reals Lra Lia ZifyBool ZifyNat String.
From Verif Require Import Base UnitsModel LoveModel PropLove LoveObjModel.
Close Scope Z_scope.
Close Scope R_scope.
Open Scope nat_scope.

(** the numbers an object shows: its three arrays *)
Definition shows (s : store) (p : entries) (v : list R * list R * list R) : Prop :=
  exists a b c, p = mke (Some a) (Some b) (Some c) /\ v = (s a, s b, s c).
(** three different arrays *)
Definition apart (p : entries) : Prop := exists a b c, p = mke (Some a) (Some b) (Some c) /\ a <> b /\ a <> c /\ b <> c.

(** ** one transformation: the numbers change as in C52, in the arrays; every other array is left as it is *)
Theorem C135_transform : forall s o ref v v', apart (parts o) -> shows s (parts o) v -> long v -> transform v ref = Ok v' ->
  exists s', transform_obj s o ref = (s', mkl (parts o) (top o) (degrees o) (Some ref), None) /\ shows s' (parts o) v'
  /\ forall b, ~ In (Some b) (to_tuple o) -> s' b = s b.
Proof.
  intros s o ref v v' (a & b & c & P & AB & AC & BC) (a' & b' & c' & P' & ->) (L1 & L2 & L3) T. rewrite P in P'. injection P' as <- <- <-. cbn [fst snd] in L1, L2, L3.
  unfold transform in T. destruct (frame_alpha ref (nth 1 (s a) 0%R) (nth 1 (s c) 0%R)) as [al|] eqn:F; [|discriminate]. cbn [bind] in T.
  replace ((List.length (s a) <? 2) || (List.length (s b) <? 2) || (List.length (s c) <? 2)) with false in T by lia. injection T as <-.
  assert (N : forall l : list R, 2 <= List.length l -> nth_error l 1 = Some (nth 1 l 0%R)) by (intros l H; apply nth_error_nth'; lia).
  assert (A : alpha_of s (parts o) ref = Ok al).
  { rewrite P. unfold alpha_of, first_degree. cbn [e_h e_l]. rewrite !N by assumption. unfold frame_alpha in F. destruct (String.eqb (upper ref) "CF"); [cbn [bind]; exact F|].
    destruct (String.eqb (upper ref) "CL"); [exact F|]. destruct (String.eqb (upper ref) "CH"); [exact F|]. destruct (String.eqb (upper ref) "CM"); [exact F|]. destruct (String.eqb (upper ref) "CE"); [exact F|]. discriminate. }
  unfold transform_obj. rewrite A, P. unfold shift. cbn [e_h e_k e_l]. rewrite (N (s a)) by assumption.
  replace (b =? a) with false by lia. rewrite (N (s b)) by assumption. replace (c =? b) with false by lia. replace (c =? a) with false by lia. rewrite (N (s c)) by assumption.
  eexists. split; [reflexivity|]. split.
  - exists a, b, c. split; [reflexivity|]. rewrite Nat.eqb_refl. replace (a =? c) with false by lia. replace (a =? b) with false by lia. replace (b =? c) with false by lia. rewrite !Nat.eqb_refl. reflexivity.
  - intros d Hd. unfold to_tuple in Hd. rewrite P in Hd. cbn [e_h e_k e_l In] in Hd.
    destruct (Nat.eqb_spec d c) as [->|]; [exfalso; apply Hd; tauto|]. destruct (Nat.eqb_spec d b) as [->|]; [exfalso; apply Hd; tauto|]. destruct (Nat.eqb_spec d a) as [->|]; [exfalso; apply Hd; tauto|]. reflexivity.
Qed.
(** an unknown frame changes nothing *)
Theorem C135_unknown_frame : forall s o ref, ~ valid_frame ref -> transform_obj s o ref = (s, o, Some OtherExn).
Proof.
  intros s o ref H. unfold transform_obj, alpha_of. unfold valid_frame in H. cbn [In] in H.
  repeat match goal with |- context [String.eqb ?a ?b] => destruct (String.eqb_spec a b); [exfalso; apply H; auto 6|] end. reflexivity.
Qed.

(** ** dictionaries, tuples and loops give the arrays themselves; an object made from a dictionary has its arrays, its length is the number of degrees *)
Theorem C135_dictionary : forall s o d a, e_h d = Some a ->
  exists o', from_dict s o d = (o', None) /\ to_dict o' = d /\ to_tuple o' = [e_h d; e_k d; e_l d] /\ iterate o' = to_tuple o' /\ frame o' = frame o
  /\ length_of o' = Ok (List.length (s a)) /\ degrees o' = Some (seq 0 (List.length (s a))).
Proof.
  intros s o d a E. unfold from_dict. rewrite E. eexists. split; [reflexivity|]. unfold update_dimensions, length_of, to_tuple, iterate, to_dict. cbn. rewrite E, seq_length. repeat split; reflexivity.
Qed.
Theorem C135_no_hl : forall s o d, e_h d = None -> snd (from_dict s o d) = Some TypeError /\ to_dict (fst (from_dict s o d)) = d.
Proof. intros s o d E. unfold from_dict. rewrite E. split; reflexivity. Qed.
(** a new object: as long as its degrees, although its arrays are empty: no transformation to a known frame is possible; without a maximum degree it has no length *)
Theorem C135_new : forall s a lmax ref, (s a = [] /\ s (a + 1) = [] /\ s (a + 2) = []) ->
  length_of (new_love a lmax) = match lmax with Some k => Ok (S k) | None => Err TypeError end
  /\ (valid_frame ref -> transform_obj s (new_love a lmax) ref = (s, new_love a lmax, Some IndexError)).
Proof.
  intros s a lmax ref (A & B & C). split.
  - unfold length_of, new_love. destruct lmax as [k|]; [|reflexivity]. cbn [degrees option_map]. rewrite seq_length. reflexivity.
  - intros V. unfold transform_obj. set (o := new_love a lmax). assert (P : parts o = mke (Some a) (Some (a + 1)) (Some (a + 2))) by reflexivity. clearbody o. rewrite P. unfold alpha_of, first_degree, shift. cbn [e_h e_k e_l]. rewrite A, ?C. cbn [nth_error bind].
    unfold valid_frame in V. cbn [In] in V. destruct V as [<-|[<-|[<-|[<-|[<-|[]]]]]]; reflexivity.
Qed.

(** ** programs *)
(** the numbers after the transformations to the frames of the list, one after the other, on one object alone *)
Fixpoint in_turn (v : list R * list R * list R) (refs : list string) : res (list R * list R * list R) :=
  match refs with [] => Ok v | r :: t => do v' <- transform v r; in_turn v' t end.
(** the frame of the last transformation of object i in a program *)
Fixpoint own (i : nat) (prog : list (nat * string)) (f : option string) : option string :=
  match prog with [] => f | (j, r) :: t => own i t (if j =? i then Some r else f) end.
Lemma transform_long v ref v' : long v -> transform v ref = Ok v' -> long v'.
Proof.
  destruct v as [[h k] l]. intros (L1 & L2 & L3) T. cbn [fst snd] in *. unfold transform in T. destruct (frame_alpha _ _ _); [|discriminate]. cbn [bind] in T.
  replace ((List.length h <? 2) || (List.length k <? 2) || (List.length l <? 2)) with false in T by lia. injection T as <-. unfold long. cbn [fst snd]. rewrite !upd_length. repeat split; assumption.
Qed.
(** refuted: objects made from the same dictionary (or from the dictionaries of one another) do not have their own numbers.  Whatever objects a program transforms, in whatever order, all of them
    show the numbers of all the transformations, those of the others too, while each names only the frame it was last taken to itself *)
Theorem C135_shared : forall prog s os p v v', apart p -> shows s p v -> long v -> (forall i, parts (os i) = p) -> in_turn v (map snd prog) = Ok v' ->
  exists s' os', run s os prog = (s', os', None) /\ shows s' p v' /\ forall i, parts (os' i) = p /\ frame (os' i) = own i prog (frame (os i)).
Proof.
  induction prog as [|[i ref] t IH]; intros s os p v v' AP SH LO PA T.
  - cbn in T. injection T as <-. exists s, os. split; [reflexivity|]. split; [exact SH|]. intros i. split; [apply PA|reflexivity].
  - cbn [map snd in_turn] in T. destruct (transform v ref) as [w|] eqn:TW; [|discriminate]. cbn [bind] in T.
    assert (AP' : apart (parts (os i))) by (rewrite PA; exact AP). assert (SH' : shows s (parts (os i)) v) by (rewrite PA; exact SH).
    destruct (C135_transform s (os i) ref v w AP' SH' LO TW) as (s1 & E & S1 & _). cbn [run]. rewrite E. rewrite PA in S1.
    destruct (IH s1 (fun j => if j =? i then mkl (parts (os i)) (top (os i)) (degrees (os i)) (Some ref) else os j) p w v' AP S1 (transform_long _ _ _ LO TW)) as (s' & os' & R & S' & C).
    { intros j. cbn beta. destruct (j =? i); [cbn; apply PA|apply PA]. }
    { exact T. }
    exists s', os'. split; [exact R|]. split; [exact S'|]. intros j. destruct (C j) as [C1 C2]. split; [exact C1|]. rewrite C2. cbn [own]. rewrite (Nat.eqb_sym i j). destruct (j =? i); reflexivity.
Qed.
(** if the last transformation is to CF, CL or CH the numbers are those of that frame, whatever happened before *)
Lemma in_turn_app v xs r v' : in_turn v (xs ++ [r]) = Ok v' -> exists w, in_turn v xs = Ok w /\ transform w r = Ok v'.
Proof.
  revert v. induction xs as [|x t IH]; intros v E; cbn [app in_turn] in *.
  - destruct (transform v r) as [w|] eqn:T; [|discriminate]. cbn [bind] in E. injection E as <-. exists v. split; [reflexivity|exact T].
  - destruct (transform v x) as [w|]; [|discriminate]. cbn [bind] in *. exact (IH w E).
Qed.
Lemma transform_valid v r w : transform v r = Ok w -> valid_frame r.
Proof.
  destruct v as [[h k] l]. unfold transform, frame_alpha, valid_frame. cbn [In]. intros E.
  repeat match type of E with context [String.eqb ?a ?b] => destruct (String.eqb_spec a b); [auto 6|] end. discriminate.
Qed.
Theorem C135_last_frame : forall xs v r v', long v -> In (upper r) ["CF"; "CL"; "CH"]%string -> in_turn v (xs ++ [r]) = Ok v' -> transform v r = Ok v'.
Proof.
  intros xs v r v' LO RR E. apply in_turn_app in E. destruct E as (w & E & T). revert v LO E. induction xs as [|x t IH]; intros v LO E.
  - cbn in E. injection E as ->. exact T.
  - cbn [in_turn] in E. destruct (transform v x) as [u|] eqn:X; [|discriminate]. cbn [bind] in E. pose proof (IH u (transform_long _ _ _ LO X) E) as U.
    assert (V : valid_frame r) by (unfold valid_frame; cbn [In] in *; tauto).
    destruct (C52_transform v r LO V) as (z & Z & _). rewrite Z. f_equal. pose proof (C52_absolute v x r u z LO (transform_valid _ _ _ X) RR X Z) as AB. rewrite AB in U. injection U as ->. reflexivity.
Qed.
(** so two objects of one dictionary, one taken to CF and then the other to CM: the first one says CF, its numbers are those of CM: h + 2 l is not 0 but -3 *)
Theorem C135_label_refuted : forall s os p v, apart p -> shows s p v -> long v -> (forall i, parts (os i) = p) ->
  exists s' os' w, run s os [(0, "CF"); (1, "CM")]%string = (s', os', None) /\ shows s' (parts (os' 0)) w /\ frame (os' 0) = Some "CF"%string /\ (h_of w 1 + 2 * l_of w 1 = - 3)%R.
Proof.
  intros s os p v AP SH LO PA.
  assert (V1 : valid_frame "CF") by (unfold valid_frame; cbn; tauto). assert (V2 : valid_frame "CM") by (unfold valid_frame; cbn; tauto).
  destruct (C52_transform v "CF" LO V1) as (v1 & T1 & _ & _ & _ & L1 & (I1 & _)). destruct (C52_transform v1 "CM" L1 V2) as (v2 & T2 & _ & D1 & D2 & L2 & (_ & _ & _ & I2 & _)).
  destruct (C135_shared [(0, "CF"); (1, "CM")]%string s os p v v2 AP SH LO PA) as (s' & os' & R & S' & C).
  { cbn [map snd in_turn]. rewrite T1. cbn [bind]. rewrite T2. reflexivity. }
  exists s', os', v2. split; [exact R|]. destruct (C 0) as [C1 C2]. rewrite C1. split; [exact S'|]. split; [exact C2|].
  specialize (I1 eq_refl). specialize (I2 eq_refl). Lra.lra.
Qed.
(** objects with arrays of their own keep them, whatever is done to the others *)
Theorem C135_separate : forall prog s os i b, (forall j, j = i \/ ~ In (Some b) (to_tuple (os j))) -> (forall x, In x prog -> fst x <> i) -> fst (fst (run s os prog)) b = s b.
Proof.
  assert (SH : forall s a al c, a <> Some c -> fst (shift s a al) c = s c).
  { intros s [a|] al c N; [|reflexivity]. unfold shift. destruct (nth_error (s a) 1); [|reflexivity]. cbn [fst]. destruct (Nat.eqb_spec c a) as [->|]; [contradiction|reflexivity]. }
  assert (TO : forall s o ref c, ~ In (Some c) (to_tuple o) -> fst (fst (transform_obj s o ref)) c = s c /\ parts (snd (fst (transform_obj s o ref))) = parts o).
  { intros s o ref c N. unfold to_tuple in N. cbn [In] in N. unfold transform_obj. destruct (alpha_of s (parts o) ref) as [al|e]; [|split; reflexivity].
    pose proof (SH s (e_h (parts o)) al c ltac:(tauto)) as H1. destruct (shift s (e_h (parts o)) al) as [s1 [e|]]; cbn [fst] in H1; [split; [exact H1|reflexivity]|].
    pose proof (SH s1 (e_k (parts o)) al c ltac:(tauto)) as H2. destruct (shift s1 (e_k (parts o)) al) as [s2 [e|]]; cbn [fst] in H2; [split; [cbn; congruence|reflexivity]|].
    pose proof (SH s2 (e_l (parts o)) al c ltac:(tauto)) as H3. destruct (shift s2 (e_l (parts o)) al) as [s3 [e|]]; cbn [fst] in H3; (split; [cbn; congruence|reflexivity]). }
  induction prog as [|[j ref] t IH]; intros s os i b A B; [reflexivity|]. cbn [run].
  assert (NJ : j <> i) by (apply (B (j, ref)); left; reflexivity). destruct (A j) as [X|X]; [contradiction|]. destruct (TO s (os j) ref b X) as [T1 T2].
  destruct (transform_obj s (os j) ref) as [[s1 o1] [e|]]; cbn [fst snd] in T1, T2; [exact T1|]. rewrite (IH s1 _ i b); [exact T1| |intros x I; apply B; right; exact I].
  intros k. destruct (A k) as [Y|Y]; [left; exact Y|right]. cbn beta. destruct (Nat.eqb_spec k j) as [->|]; [|exact Y]. unfold to_tuple in *. rewrite T2. exact X.
Qed.

(** the hypotheses are met: two objects from one dictionary *)
Example C135_meets : let s : store := fun a => match a with 0 => [0; -29 / 100]%R | 1 => [0; 0]%R | 2 => [0; 1 / 10]%R | _ => [] end in
  let d := mke (Some 0) (Some 1) (Some 2) in let os := fun i : nat => fst (from_dict s (new_love (10 * (i + 1)) None) d) in
  apart d /\ shows s d ([0; -29 / 100], [0; 0], [0; 1 / 10])%R /\ long ([0; -29 / 100], [0; 0], [0; 1 / 10])%R /\ (forall i, parts (os i) = d)
  /\ ~ In (Some 10) (to_tuple (os 1)) /\ length_of (os 0) = Ok 2.
Proof.
  cbv zeta. split; [exists 0, 1, 2; repeat split; lia|]. split; [exists 0, 1, 2; split; reflexivity|]. split; [unfold long; cbn; lia|]. split; [reflexivity|]. split; [cbn; intuition discriminate|]. reflexivity.
Qed.
