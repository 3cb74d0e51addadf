(** Properties C51, C52: read_love_numbers.py. *)
From Coq Require Import Reals Lra Lia String Ascii ZifyBool ZifyNat.
From Verif Require Import Base UnitsModel UnitsProofs LoveModel.
Close Scope Z_scope.
Open Scope R_scope.
Local Opaque max_degree.

(** ** Specification *)
(** a row of the file: degree and the three numbers h, k, l *)
Definition entry : Type := (nat * (R * R * R))%type.
Definition eh (e : entry) : R := fst (fst (snd e)).
Definition ek (e : entry) : R := snd (fst (snd e)).
Definition el (e : entry) : R := snd (snd e).
(** a token line read with the given column names: "inf" is degree 100000 *)
Definition reads (cols : list string) (row : list tok) (e : entry) : Prop :=
  (column cols "l" row = Ok (TInt (fst e)) \/ (column cols "l" row = Ok TInf /\ fst e = max_degree)) /\
  columnf cols "hl" row = Ok (eh e) /\ columnf cols "kl" row = Ok (ek e) /\ columnf cols "ll" row = Ok (el e).
(** the data lines of the file are [es]; [e] is the last line, of degree d >= 2 *)
Definition file_reads (contents : list (list tok)) (HEADER : nat) (COLUMNS : list string) (es : list entry) (d : nat) : Prop :=
  Forall2 (reads COLUMNS) (skipn HEADER contents) es /\ (2 <= d)%nat /\ exists es' e, es = (es' ++ [e])%list /\ fst e = d.
(** the maximum degree used *)
Definition top (LMAX : option nat) (d : nat) : nat := match LMAX with Some n => n | None => d end.
(** [e] is the (last) row of its degree *)
Definition row_of (es : list entry) (e : entry) : Prop := exists e1 e2, es = (e1 ++ e :: e2)%list /\ ~ In (fst e) (map fst e2).
Definition listed (es : list entry) (l : nat) : Prop := In l (map fst es).
Definition valid_frame (ref : string) : Prop := In (upper ref) ["CF"; "CL"; "CH"; "CM"; "CE"]%string.
Definition h_of (v : list R * list R * list R) (l : nat) : R := nth l (fst (fst v)) 0.
Definition k_of (v : list R * list R * list R) (l : nat) : R := nth l (snd (fst v)) 0.
Definition l_of (v : list R * list R * list R) (l : nat) : R := nth l (snd v) 0.

(** ** Proofs about the model *)
Definition fvals (LMAX : nat) (sel : entry -> R) (es : list entry) (a : nat -> R) : nat -> R :=
  fold_left (fun a e => if (fst e <=? LMAX)%nat then put a (fst e) (sel e) else a) es a.
Definition fknown (LMAX : nat) (es : list entry) (a : nat -> bool) : nat -> bool :=
  fold_left (fun a e => if (fst e <=? LMAX)%nat then (fun j => if (j =? fst e)%nat then true else a j) else a) es a.
Definition flast (es : list entry) (a : option nat) : option nat := fold_left (fun _ e => Some (fst e)) es a.

Lemma read_rows_ok cols LMAX : forall rows es, Forall2 (reads cols) rows es -> forall v known l,
  read_rows cols LMAX (v, known, l) rows = Ok (mklv (fvals LMAX eh es (hl v)) (fvals LMAX ek es (kl v)) (fvals LMAX el es (ll v)), fknown LMAX es known, flast es l).
Proof.
  induction 1 as [|row e rows es HR HF IH]; intros v known l; [now destruct v|].
  cbn [read_rows]. destruct HR as (HD & H1 & H2 & H3).
  assert (E : read_row cols LMAX (v, known, l) row = Ok (if (fst e <=? LMAX)%nat then mklv (put (hl v) (fst e) (eh e)) (put (kl v) (fst e) (ek e)) (put (ll v) (fst e) (el e)) else v,
     (if (fst e <=? LMAX)%nat then (fun j => if (j =? fst e)%nat then true else known j) else known), Some (fst e))).
  { unfold read_row. destruct HD as [HD|[HD HE]]; rewrite HD; cbn [bind tok_degree]; [|rewrite <- HE]; destruct (fst e <=? LMAX)%nat; try reflexivity; rewrite H1, H2, H3; reflexivity. }
  rewrite E. cbn [bind]. rewrite IH. unfold fvals, fknown, flast. cbn [fold_left]. destruct (fst e <=? LMAX)%nat; reflexivity.
Qed.

Lemma fvals_other LMAX sel es : forall a l, ~ In l (map fst es) -> fvals LMAX sel es a l = a l.
Proof.
  induction es as [|e es IH]; intros a l H; [reflexivity|]. unfold fvals. cbn [fold_left]. fold (fvals LMAX sel es). cbn [map In] in H.
  change (fvals LMAX sel es (if (fst e <=? LMAX)%nat then put a (fst e) (sel e) else a) l = a l). rewrite IH by tauto. destruct (fst e <=? LMAX)%nat; [|reflexivity]. unfold put. replace (l =? fst e)%nat with false; [reflexivity|]. assert (fst e <> l) by tauto. lia.
Qed.
Lemma fvals_row LMAX sel es e a : row_of es e -> (fst e <= LMAX)%nat -> fvals LMAX sel es a (fst e) = sel e.
Proof.
  intros (e1 & e2 & -> & N) H. unfold fvals. rewrite fold_left_app. cbn [fold_left]. replace (fst e <=? LMAX)%nat with true by lia.
  set (b := fold_left _ e1 a). change (fvals LMAX sel e2 (put b (fst e) (sel e)) (fst e) = sel e). rewrite fvals_other by assumption. unfold put. now rewrite Nat.eqb_refl.
Qed.
Lemma fknown_ok LMAX es : forall a l, fknown LMAX es a l = a l || (existsb (fun e => (l =? fst e)%nat) es && (l <=? LMAX)%nat).
Proof.
  induction es as [|e es IH]; intros a l; [cbn; now rewrite orb_false_r|]. unfold fknown. cbn [fold_left existsb].
  change (fknown LMAX es (if (fst e <=? LMAX)%nat then (fun j => if (j =? fst e)%nat then true else a j) else a) l = a l || (((l =? fst e)%nat || existsb (fun e => (l =? fst e)%nat) es) && (l <=? LMAX)%nat)). rewrite IH.
  destruct (Nat.leb_spec (fst e) LMAX); [|destruct (Nat.eqb_spec l (fst e)); [subst; replace (fst e <=? LMAX)%nat with false by lia; now rewrite !andb_false_r|reflexivity]].
  destruct (Nat.eqb_spec l (fst e)); [|reflexivity]. subst. replace (fst e <=? LMAX)%nat with true by lia. cbn. now rewrite orb_true_r.
Qed.
Lemma listed_known LMAX es l : (l <= LMAX)%nat -> (fknown LMAX es (fun _ => false) l = true <-> listed es l).
Proof.
  intros H. rewrite fknown_ok. cbn [orb]. replace (l <=? LMAX)%nat with true by lia. rewrite andb_true_r. unfold listed. rewrite existsb_exists, in_map_iff.
  split; [intros (e & A & B)|intros (e & A & B)]; exists e; [split; [lia|exact A]|split; [exact B|lia]].
Qed.
Lemma listed_row es l : listed es l -> exists e, fst e = l /\ row_of es e.
Proof.
  unfold listed. induction es as [|e es IH]; [intros []|]. cbn [map In]. intros H.
  destruct (in_dec Nat.eq_dec l (map fst es)) as [I|I].
  - destruct (IH I) as (x & Ex & e1 & e2 & -> & N). exists x. split; [exact Ex|]. exists (e :: e1), e2. split; [reflexivity|exact N].
  - destruct H as [H|H]; [|contradiction]. exists e. split; [exact H|]. exists [], es. split; [reflexivity|now rewrite H].
Qed.
Lemma flast_last es e a : flast (es ++ [e])%list a = Some (fst e).
Proof. unfold flast. now rewrite fold_left_app. Qed.

Lemma below_ok known l : match below known l with Some a => (a < l)%nat /\ known a = true /\ (forall b, (a < b < l)%nat -> known b = false) | None => forall b, (b < l)%nat -> known b = false end.
Proof.
  induction l as [|l IH]; cbn [below]; [lia|]. destruct (known l) eqn:E; [repeat split; try lia; assumption|]. destruct (below known l) as [a|].
  - destruct IH as (A & B & C). repeat split; [lia|exact B|]. intros b Hb. destruct (Nat.eq_dec b l) as [->|]; [exact E|apply C; lia].
  - intros b Hb. destruct (Nat.eq_dec b l) as [->|]; [exact E|apply IH; lia].
Qed.
Lemma above_ok known n : forall l, match above known l n with Some a => (l <= a < l + n)%nat /\ known a = true /\ (forall b, (l <= b < a)%nat -> known b = false) | None => forall b, (l <= b < l + n)%nat -> known b = false end.
Proof.
  induction n as [|n IH]; intros l; cbn [above]; [intros b Hb; lia|]. destruct (known l) eqn:E; [repeat split; try lia; assumption|]. specialize (IH (S l)). destruct (above known (S l) n) as [a|].
  - destruct IH as (A & B & C). repeat split; [lia|lia|exact B|]. intros b Hb. destruct (Nat.eq_dec b l) as [->|]; [exact E|apply C; lia].
  - intros b Hb. destruct (Nat.eq_dec b l) as [->|]; [exact E|apply IH; lia].
Qed.
Lemma interp_between known LMAX f a b l : known a = true -> known b = true -> (a < l < b)%nat -> (b <= LMAX)%nat -> (forall j, (a < j < b)%nat -> known j = false) ->
  interp known LMAX l f = f a + (f b - f a) / (INR b - INR a) * (INR l - INR a).
Proof.
  intros Ka Kb H Hb Hn. unfold interp. pose proof (below_ok known l) as B. pose proof (above_ok known (LMAX - l) (S l)) as A.
  destruct (below known l) as [x|]; [|rewrite B in Ka by lia; discriminate]. destruct (above known (S l) (LMAX - l)) as [y|]; [|rewrite A in Kb by lia; discriminate].
  destruct B as (B1 & B2 & B3), A as (A1 & A2 & A3).
  assert (x = a). { destruct (lt_eq_lt_dec x a) as [[X|X]|X]; [rewrite B3 in Ka by lia; discriminate|exact X|rewrite Hn in B2 by lia; discriminate]. }
  assert (y = b). { destruct (lt_eq_lt_dec y b) as [[X|X]|X]; [rewrite Hn in A2 by lia; discriminate|exact X|rewrite A3 in Kb by lia; discriminate]. }
  now subst.
Qed.
Lemma interp_first known LMAX f b l : known b = true -> (l < b)%nat -> (b <= LMAX)%nat -> (forall j, (j < b)%nat -> known j = false) -> interp known LMAX l f = f b.
Proof.
  intros Kb H Hb Hn. unfold interp. pose proof (below_ok known l) as B. pose proof (above_ok known (LMAX - l) (S l)) as A.
  destruct (below known l) as [x|]; [destruct B as (B1 & B2 & _); rewrite Hn in B2 by lia; discriminate|]. destruct (above known (S l) (LMAX - l)) as [y|]; [|rewrite A in Kb by lia; discriminate].
  destruct A as (A1 & A2 & A3). destruct (lt_eq_lt_dec y b) as [[X|X]|X]; [rewrite Hn in A2 by lia; discriminate|now subst|rewrite A3 in Kb by lia; discriminate].
Qed.

(** extrapolation *)
Definition ext_arr (LMAX d : nat) (a : nat -> R) : nat -> R := fold_left (fun a i => extend1 LMAX i a) (seq d (LMAX + 1 - d)) a.
Lemma ext_lv LMAX l : forall v, let v' := fold_left (extend LMAX) l v in
  hl v' = fold_left (fun a i => extend1 LMAX i a) l (hl v) /\ kl v' = fold_left (fun a i => extend1 LMAX i a) l (kl v) /\ ll v' = fold_left (fun a i => extend1 LMAX i a) l (ll v).
Proof. induction l as [|i l IH]; intros v; cbn [fold_left]; [repeat split|]. apply (IH (extend LMAX v i)). Qed.
Lemma wrap_pos n i : wrap n (Z.of_nat i) = i.
Proof. unfold wrap. replace (Z.of_nat i <? 0)%Z with false by lia. lia. Qed.
Lemma ext_gen LMAX : forall n d a, (2 <= d)%nat -> let a' := fold_left (fun a i => extend1 LMAX i a) (seq d n) a in
  (forall j, (j < d)%nat -> a' j = a j) /\ (forall j, (d <= j < d + n)%nat -> a' j = 2 * a' (j - 1)%nat - a' (j - 2)%nat).
Proof.
  induction n as [|n IH]; intros d a Hd; cbn [seq fold_left]; [split; [reflexivity|lia]|].
  destruct (IH (S d) (extend1 LMAX d a) ltac:(lia)) as [I1 I2]. cbv zeta in *. set (a' := fold_left _ _ _) in *.
  assert (E : forall j, (j < d)%nat -> a' j = a j).
  { intros j Hj. rewrite I1 by lia. unfold extend1, put. now replace (j =? d)%nat with false by lia. }
  split; [exact E|]. intros j Hj. destruct (Nat.eq_dec j d) as [->|N]; [|apply I2; lia].
  rewrite I1 by lia. unfold extend1, put. rewrite Nat.eqb_refl. rewrite !E by lia.
  replace (Z.of_nat d - 1)%Z with (Z.of_nat (d - 1)) by lia. replace (Z.of_nat d - 2)%Z with (Z.of_nat (d - 2)) by lia. now rewrite !wrap_pos.
Qed.
Lemma ext_ok LMAX d a : (2 <= d)%nat -> (forall j, (j < d)%nat -> ext_arr LMAX d a j = a j) /\
  (forall j, (d <= j <= LMAX)%nat -> ext_arr LMAX d a j = 2 * ext_arr LMAX d a (j - 1)%nat - ext_arr LMAX d a (j - 2)%nat).
Proof. intros H. destruct (ext_gen LMAX (LMAX + 1 - d) d a H) as [A B]. split; [exact A|]. intros j Hj. apply B. lia. Qed.

Lemma frame_ok ref h1 l1 : valid_frame ref -> exists al, frame_alpha ref h1 l1 = Ok al.
Proof.
  unfold valid_frame, frame_alpha. cbn [In]. intros H. destruct H as [H|[H|[H|[H|[H|[]]]]]]; rewrite <- H; cbn; eexists; reflexivity.
Qed.

(** the arrays before the change of frame *)
Definition base_vals (es : list entry) (LMAX d : nat) (sel : entry -> R) : nat -> R :=
  let known := fknown LMAX es (fun _ => false) in
  let f := fvals LMAX sel es (fun _ => 0) in
  ext_arr LMAX d (if forallb known (seq 0 (LMAX + 1)) then f else fun l => if known l then f l else interp known LMAX l f).

Lemma read_main contents LMAX HEADER COLUMNS REF es d L : file_reads contents HEADER COLUMNS es d -> L = top LMAX d -> (1 <= L)%nat ->
  (exists l, (l <= L)%nat /\ listed es l) -> valid_frame REF ->
  exists al, frame_alpha REF (base_vals es L d eh 1%nat) (base_vals es L d el 1%nat) = Ok al /\
  let g := fun sel => tab (L + 1) (fun i => if (i =? 1)%nat then base_vals es L d sel i - al else base_vals es L d sel i) in
  read_love_numbers contents LMAX HEADER COLUMNS REF = Ok (g eh, g ek, g el).
Proof.
  intros (HF & Hd & es' & e & -> & He) HL H1 (l0 & Hl0 & Ll0) HV.
  assert (HC : exists row, rev contents = row :: tl (rev contents) /\ reads COLUMNS row e).
  { apply Forall2_app_inv_r in HF. destruct HF as (l1 & l2 & F1 & F2 & E). inversion F2 as [|row e' l2' es2 R1 R2]; subst. inversion R2; subst.
    exists row. split; [|exact R1]. rewrite <- (firstn_skipn HEADER contents), E. rewrite !rev_app_distr. reflexivity. }
  destruct HC as (row & ER & HRow). unfold read_love_numbers. rewrite ER. clear ER.
  assert (LM : exists t, column COLUMNS "l" row = Ok t /\ match LMAX, t with Some n, _ => Ok n | None, TInf => Ok max_degree | None, TInt n => Ok n | None, TReal _ => Err ValueError end = Ok L).
  { destruct HRow as ([X|[X Y]] & _); eexists; (split; [exact X|]); destruct LMAX; cbn [top] in HL; subst L; try reflexivity; [now rewrite He|now rewrite <- Y, He]. }
  destruct LM as (t & -> & LM). cbn [bind]. rewrite LM. cbn [bind]. rewrite (read_rows_ok COLUMNS L _ _ HF). cbn [bind].
  replace (L =? 0)%nat with false by lia. cbn [hl kl ll]. unfold fill_missing. set (known := fknown L (es' ++ [e]) (fun _ => false)).
  assert (EX : existsb known (seq 0 (L + 1)) = true).
  { apply existsb_exists. exists l0. split; [apply in_seq; lia|]. unfold known. now apply listed_known. }
  rewrite EX. rewrite flast_last, He.
  assert (V : exists v, (if forallb known (seq 0 (L + 1)) then Ok (mklv (fvals L eh (es' ++ [e]) (fun _ => 0)) (fvals L ek (es' ++ [e]) (fun _ => 0)) (fvals L el (es' ++ [e]) (fun _ => 0)))
     else Ok (lmapi (fun l f => if known l then f l else interp known L l f) (mklv (fvals L eh (es' ++ [e]) (fun _ => 0)) (fvals L ek (es' ++ [e]) (fun _ => 0)) (fvals L el (es' ++ [e]) (fun _ => 0))))) = Ok v /\
     let v' := fold_left (extend L) (seq d (L + 1 - d)) v in
     hl v' = base_vals (es' ++ [e]) L d eh /\ kl v' = base_vals (es' ++ [e]) L d ek /\ ll v' = base_vals (es' ++ [e]) L d el).
  { unfold base_vals. fold known. destruct (forallb known (seq 0 (L + 1))).
    - eexists. split; [reflexivity|]. cbv zeta. destruct (ext_lv L (seq d (L + 1 - d)) (mklv (fvals L eh (es' ++ [e]) (fun _ => 0)) (fvals L ek (es' ++ [e]) (fun _ => 0)) (fvals L el (es' ++ [e]) (fun _ => 0)))) as (-> & -> & ->). repeat split.
    - eexists. split; [reflexivity|]. cbv zeta. match goal with |- context [fold_left (extend L) ?s ?v] => destruct (ext_lv L s v) as (-> & -> & ->) end. repeat split. }
  destruct V as (v & -> & V1 & V2 & V3). cbn [bind]. set (v' := fold_left (extend L) _ v) in *. rewrite V1, V3.
  destruct (frame_ok REF (base_vals (es' ++ [e]) L d eh 1%nat) (base_vals (es' ++ [e]) L d el 1%nat) HV) as (al & EA).
  exists al. split; [exact EA|]. cbv zeta. rewrite EA. cbn [bind]. unfold love_tuple, lmapi. cbn [hl kl ll]. now rewrite V1, V2, V3.
Qed.
Lemma base_listed es L d sel e : (2 <= d)%nat -> row_of es e -> (fst e <= L)%nat -> (fst e < d)%nat -> base_vals es L d sel (fst e) = sel e.
Proof.
  intros Hd HR H1 H2. unfold base_vals. cbv zeta. destruct (ext_ok L d (if forallb (fknown L es (fun _ => false)) (seq 0 (L + 1)) then fvals L sel es (fun _ => 0) else
    fun l => if fknown L es (fun _ => false) l then fvals L sel es (fun _ => 0) l else interp (fknown L es (fun _ => false)) L l (fvals L sel es (fun _ => 0))) Hd) as [A _].
  rewrite A by assumption. assert (K : fknown L es (fun _ => false) (fst e) = true).
  { apply listed_known; [exact H1|]. destruct HR as (e1 & e2 & -> & _). unfold listed. rewrite map_app. apply in_or_app. right. now left. }
  destruct (forallb _ _); [|rewrite K]; now apply fvals_row.
Qed.
Lemma base_missing es L d sel l : (2 <= d)%nat -> ~ listed es l -> (l <= L)%nat -> (l < d)%nat ->
  base_vals es L d sel l = interp (fknown L es (fun _ => false)) L l (fvals L sel es (fun _ => 0)).
Proof.
  intros Hd HR H1 H2. unfold base_vals. cbv zeta. destruct (ext_ok L d (if forallb (fknown L es (fun _ => false)) (seq 0 (L + 1)) then fvals L sel es (fun _ => 0) else
    fun l => if fknown L es (fun _ => false) l then fvals L sel es (fun _ => 0) l else interp (fknown L es (fun _ => false)) L l (fvals L sel es (fun _ => 0))) Hd) as [A _].
  rewrite A by assumption. assert (K : fknown L es (fun _ => false) l = false).
  { destruct (fknown L es (fun _ => false) l) eqn:X; [|reflexivity]. apply listed_known in X; [contradiction|exact H1]. }
  assert (FB : forallb (fknown L es (fun _ => false)) (seq 0 (L + 1)) = false).
  { destruct (forallb _ _) eqn:X; [|reflexivity]. rewrite forallb_forall in X. rewrite X in K by (apply in_seq; lia). discriminate. }
  rewrite FB. cbv beta. now rewrite K.
Qed.

(** ** C51 *)
Section C51.
Context (contents : list (list tok)) (HEADER : nat) (COLUMNS : list string) (es : list entry) (d : nat) (LMAX : option nat) (REF : string).
Hypothesis HF : file_reads contents HEADER COLUMNS es d.
Let L := top LMAX d.
Hypothesis HL : (1 <= L)%nat.
Hypothesis HE : exists l, (l <= L)%nat /\ listed es l.
Hypothesis HV : valid_frame REF.

(** rows before the degree of the last line are returned unchanged (degree 1 in the frame of the file) *)
Theorem C51_file_values : exists v, read_love_numbers contents LMAX HEADER COLUMNS REF = Ok v /\
  List.length (fst (fst v)) = (L + 1)%nat /\ List.length (snd (fst v)) = (L + 1)%nat /\ List.length (snd v) = (L + 1)%nat /\
  forall e, row_of es e -> (fst e <= L)%nat -> (fst e < d)%nat -> (fst e <> 1%nat \/ upper REF = "CE"%string) ->
    h_of v (fst e) = eh e /\ k_of v (fst e) = ek e /\ l_of v (fst e) = el e.
Proof.
  destruct (read_main contents LMAX HEADER COLUMNS REF es d L HF eq_refl HL HE HV) as (al & EA & ->). eexists. split; [reflexivity|]. unfold h_of, k_of, l_of, tab. cbn [fst snd].
  rewrite !map_length, !seq_length. repeat (split; [reflexivity|]). intros e HR H1 H2 H3. destruct HF as (_ & Hd & _).
  fold (tab (L + 1) (fun i => if (i =? 1)%nat then base_vals es L d eh i - al else base_vals es L d eh i)).
  fold (tab (L + 1) (fun i => if (i =? 1)%nat then base_vals es L d ek i - al else base_vals es L d ek i)).
  fold (tab (L + 1) (fun i => if (i =? 1)%nat then base_vals es L d el i - al else base_vals es L d el i)).
  rewrite !tab_nth by lia. rewrite !base_listed by assumption. destruct (Nat.eqb_spec (fst e) 1) as [X|X]; [|repeat split].
  destruct H3 as [H3|H3]; [contradiction|]. unfold frame_alpha in EA. rewrite H3 in EA. cbn in EA. assert (al = 0) by congruence. subst al. repeat split; ring.
Qed.

(** a degree that is not listed is interpolated between its listed neighbours *)
Theorem C51_interpolated : exists v, read_love_numbers contents LMAX HEADER COLUMNS REF = Ok v /\
  forall l ea eb, row_of es ea -> row_of es eb -> (fst ea < l < fst eb)%nat -> (fst eb <= L)%nat -> (l < d)%nat -> (forall j, (fst ea < j < fst eb)%nat -> ~ listed es j) ->
    (l <> 1%nat \/ upper REF = "CE"%string) ->
    let w := (INR l - INR (fst ea)) / (INR (fst eb) - INR (fst ea)) in
    h_of v l = (1 - w) * eh ea + w * eh eb /\ k_of v l = (1 - w) * ek ea + w * ek eb /\ l_of v l = (1 - w) * el ea + w * el eb.
Proof.
  destruct (read_main contents LMAX HEADER COLUMNS REF es d L HF eq_refl HL HE HV) as (al & EA & ->). eexists. split; [reflexivity|]. intros l ea eb Ra Rb H1 H2 H3 H4 H5 w.
  unfold h_of, k_of, l_of. cbn [fst snd]. rewrite !tab_nth by lia. destruct HF as (_ & Hd & _).
  assert (A0 : l = 1%nat -> al = 0). { intros ->. destruct H5 as [H5|H5]; [congruence|]. unfold frame_alpha in EA. rewrite H5 in EA. cbn in EA. congruence. }
  assert (KX : forall e, row_of es e -> (fst e <= L)%nat -> fknown L es (fun _ => false) (fst e) = true).
  { intros e (e1 & e2 & -> & _) Q. apply listed_known; [exact Q|]. unfold listed. rewrite map_app. apply in_or_app. right. now left. }
  assert (B : forall sel, base_vals es L d sel l = (1 - w) * sel ea + w * sel eb).
  { intros sel. rewrite base_missing by (assumption || lia || (apply H4; lia)). rewrite (interp_between _ L _ (fst ea) (fst eb) l); try lia; try (apply KX; (assumption || lia)).
    - rewrite !fvals_row by (assumption || lia). unfold w. field. apply Rgt_not_eq. apply Rgt_minus, lt_INR. lia.
    - intros j Hj. destruct (fknown L es (fun _ => false) j) eqn:X; [|reflexivity]. apply listed_known in X; [|lia]. exfalso. now apply (H4 j Hj). }
  rewrite !B. destruct (Nat.eqb_spec l 1) as [X|X]; [rewrite (A0 X); repeat split; ring|repeat split].
Qed.

(** degrees before the first listed one take its values *)
Theorem C51_before_first : exists v, read_love_numbers contents LMAX HEADER COLUMNS REF = Ok v /\
  forall l eb, row_of es eb -> (l < fst eb)%nat -> (fst eb <= L)%nat -> (l < d)%nat -> (forall j, (j < fst eb)%nat -> ~ listed es j) -> (l <> 1%nat \/ upper REF = "CE"%string) ->
    h_of v l = eh eb /\ k_of v l = ek eb /\ l_of v l = el eb.
Proof.
  destruct (read_main contents LMAX HEADER COLUMNS REF es d L HF eq_refl HL HE HV) as (al & EA & ->). eexists. split; [reflexivity|]. intros l eb Rb H1 H2 H3 H4 H5.
  unfold h_of, k_of, l_of. cbn [fst snd]. rewrite !tab_nth by lia. destruct HF as (_ & Hd & _).
  assert (A0 : l = 1%nat -> al = 0). { intros ->. destruct H5 as [H5|H5]; [congruence|]. unfold frame_alpha in EA. rewrite H5 in EA. cbn in EA. congruence. }
  assert (B : forall sel, base_vals es L d sel l = sel eb).
  { intros sel. rewrite base_missing by (assumption || lia || (apply H4; lia)). rewrite (interp_first _ L _ (fst eb) l); try lia.
    - now rewrite !fvals_row by (assumption || lia).
    - destruct Rb as (e1 & e2 & -> & _). apply listed_known; [exact H2|]. unfold listed. rewrite map_app. apply in_or_app. right. now left.
    - intros j Hj. destruct (fknown L es (fun _ => false) j) eqn:X; [|reflexivity]. apply listed_known in X; [|lia]. exfalso. now apply (H4 j Hj). }
  rewrite !B. destruct (Nat.eqb_spec l 1) as [X|X]; [rewrite (A0 X); repeat split; ring|repeat split].
Qed.

(** REFUTED at the degree of the last line: from there on the two previous
    degrees are extrapolated, the value in the file is not used *)
Theorem C51_last_degree_refuted : upper REF = "CE"%string -> exists v, read_love_numbers contents LMAX HEADER COLUMNS REF = Ok v /\
  forall l, (d <= l <= L)%nat ->
    h_of v l = 2 * h_of v (l - 1) - h_of v (l - 2) /\ k_of v l = 2 * k_of v (l - 1) - k_of v (l - 2) /\ l_of v l = 2 * l_of v (l - 1) - l_of v (l - 2).
Proof.
  intros HCE. destruct (read_main contents LMAX HEADER COLUMNS REF es d L HF eq_refl HL HE HV) as (al & EA & ->). eexists. split; [reflexivity|]. intros l Hl.
  unfold frame_alpha in EA. rewrite HCE in EA. cbn in EA. assert (al = 0) by congruence. subst al. destruct HF as (_ & Hd & _).
  unfold h_of, k_of, l_of. cbn [fst snd]. rewrite !tab_nth by lia.
  assert (Z : forall sel i, (if (i =? 1)%nat then base_vals es L d sel i - 0 else base_vals es L d sel i) = base_vals es L d sel i) by (intros sel i; destruct (i =? 1)%nat; ring).
  rewrite !Z. assert (B : forall sel, base_vals es L d sel l = 2 * base_vals es L d sel (l - 1)%nat - base_vals es L d sel (l - 2)%nat).
  { intros sel. unfold base_vals. cbv zeta. now apply ext_ok. }
  repeat split; apply B.
Qed.
End C51.
Print Assumptions C51_file_values.

(** a file with degrees 0, 1, 2 read to its last degree: h_2 = 1 in the file, 0 in the result *)
Theorem C51_last_degree_lost :
  let file := [[TInt 0; TReal 0; TReal 0; TReal 0]; [TInt 1; TReal 0; TReal 0; TReal 0]; [TInt 2; TReal 1; TReal 1; TReal 1]] in
  exists v, read_love_numbers file None 0 ["l"; "hl"; "kl"; "ll"]%string "CE" = Ok v /\ h_of v 2 = 0 /\
    file_reads file 0 ["l"; "hl"; "kl"; "ll"]%string [(0%nat, (0, 0, 0)); (1%nat, (0, 0, 0)); (2%nat, (1, 1, 1))] 2.
Proof.
  cbv zeta. eexists. split; [|split].
  - unfold read_love_numbers. cbn. reflexivity.
  - cbn. unfold put, Pos.to_nat. cbn. ring.
  - split; [|split; [lia|]].
    + repeat constructor.
    + eexists [(0%nat, (0, 0, 0)); (1%nat, (0, 0, 0))], (2%nat, (1, 1, 1)). split; reflexivity.
Qed.

(** ** C52 *)
(** reading in a frame is reading in the frame of the file followed by [transform] *)
Theorem C52_read_is_transform : forall contents HEADER COLUMNS es d LMAX REF v, file_reads contents HEADER COLUMNS es d -> (1 <= top LMAX d)%nat ->
  (exists l, (l <= top LMAX d)%nat /\ listed es l) -> valid_frame REF ->
  read_love_numbers contents LMAX HEADER COLUMNS "CE" = Ok v -> read_love_numbers contents LMAX HEADER COLUMNS REF = transform v REF.
Proof.
  intros contents HEADER COLUMNS es d LMAX REF v HF HL HE HV E. set (L := top LMAX d) in *.
  destruct (read_main contents LMAX HEADER COLUMNS REF es d L HF eq_refl HL HE HV) as (al & EA & ER). cbv zeta in ER. rewrite ER.
  destruct (read_main contents LMAX HEADER COLUMNS "CE" es d L HF eq_refl HL HE) as (al' & EA' & ER'); [unfold valid_frame; cbn; tauto|]. cbv zeta in ER'. rewrite E in ER'.
  assert (al' = 0) by (unfold frame_alpha in EA'; change (upper "CE") with "CE"%string in EA'; cbn in EA'; congruence). subst al'. assert (EV : v = (tab (L + 1) (base_vals es L d eh), tab (L + 1) (base_vals es L d ek), tab (L + 1) (base_vals es L d el))).
  { injection ER' as ->. f_equal; [f_equal|]; apply map_ext; intros i; destruct (i =? 1)%nat; ring. }
  subst v. unfold transform. rewrite !tab_nth by lia. rewrite EA. cbn [bind]. unfold tab at 4 5 6. rewrite !map_length, !seq_length.
  replace ((L + 1 <? 2)%nat || (L + 1 <? 2)%nat || (L + 1 <? 2)%nat) with false by lia.
  assert (U : forall f, tab (L + 1) (fun i => if (i =? 1)%nat then f i - al else f i) = upd (tab (L + 1) f) 1 (f 1%nat - al)).
  { intros f. unfold tab. replace (L + 1)%nat with (S (S (L - 1))) by lia. cbn [seq map upd Nat.eqb]. f_equal. f_equal. apply map_ext_in. intros i Hi. apply in_seq in Hi. now replace (i =? 1)%nat with false by lia. }
  rewrite !U. reflexivity.
Qed.

Definition long (v : list R * list R * list R) : Prop := (2 <= List.length (fst (fst v)))%nat /\ (2 <= List.length (snd (fst v)))%nat /\ (2 <= List.length (snd v))%nat.
(** what a frame means for the degree 1 numbers *)
Definition in_frame (ref : string) (v0 v : list R * list R * list R) : Prop :=
  (ref = "CF"%string -> h_of v 1 + 2 * l_of v 1 = 0) /\ (ref = "CL"%string -> l_of v 1 = 0) /\ (ref = "CH"%string -> h_of v 1 = 0) /\
  (ref = "CM"%string -> k_of v 1 = k_of v0 1 - 1) /\ (ref = "CE"%string -> v = v0).

Lemma upd_same A (l : list A) i d : upd l i (nth i l d) = l.
Proof. revert i. induction l as [|a l IH]; intros [|i]; cbn; try reflexivity. now rewrite IH. Qed.

Theorem C52_transform : forall v ref, long v -> valid_frame ref -> exists v', transform v ref = Ok v' /\
  (* only degree 1 changes, and the three numbers change by the same amount *)
  (forall l, l <> 1%nat -> h_of v' l = h_of v l /\ k_of v' l = k_of v l /\ l_of v' l = l_of v l) /\
  h_of v 1 - h_of v' 1 = k_of v 1 - k_of v' 1 /\ h_of v 1 - h_of v' 1 = l_of v 1 - l_of v' 1 /\
  long v' /\ in_frame (upper ref) v v'.
Proof.
  intros [[h k] l] ref (L1 & L2 & L3) HV. unfold h_of, k_of, l_of, in_frame, long. cbn [fst snd] in *. unfold transform.
  destruct (frame_ok ref (nth 1 h 0) (nth 1 l 0) HV) as (al & EA). rewrite EA. cbn [bind].
  replace ((List.length h <? 2)%nat || (List.length k <? 2)%nat || (List.length l <? 2)%nat) with false by lia. eexists. split; [reflexivity|]. cbn [fst snd].
  rewrite !upd_length. assert (U : forall (a : list R) x, (2 <= List.length a)%nat -> nth 1 (upd a 1 x) 0 = x).
  { intros a x Ha. rewrite upd_nth. cbn [Nat.eqb]. now replace (1 <? List.length a)%nat with true by lia. }
  rewrite !U by assumption. split; [intros i Hi; rewrite !upd_nth; replace (1 =? i)%nat with false by lia; repeat split|].
  split; [ring|]. split; [ring|]. split; [repeat split; assumption|].
  unfold frame_alpha in EA. repeat split; intros X; rewrite X in EA; cbn in EA; assert (EA' : forall x, Ok x = Ok al -> al = x) by congruence; apply EA' in EA; subst al; unfold h_of, k_of, l_of; cbn [fst snd]; rewrite ?U by assumption; try field.
  rewrite !Rminus_0_r, !upd_same. reflexivity.
Qed.

Theorem C52_unknown_frame : forall v ref, ~ valid_frame ref -> transform v ref = Err OtherExn.
Proof.
  intros [[h k] l] ref H. unfold transform, frame_alpha. unfold valid_frame in H. cbn [In] in H.
  repeat match goal with |- context [String.eqb ?a ?b] => destruct (String.eqb_spec a b); [exfalso; apply H; auto 6|] end. reflexivity.
Qed.

(** CF, CL and CH are absolute: the result does not depend on the frame of the
    argument; in particular they are idempotent *)
Theorem C52_absolute : forall v r1 r2 v1 v2, long v -> valid_frame r1 -> In (upper r2) ["CF"; "CL"; "CH"]%string ->
  transform v r1 = Ok v1 -> transform v r2 = Ok v2 -> transform v1 r2 = Ok v2.
Proof.
  intros [[h k] l] r1 r2 v1 v2 (L1 & L2 & L3) HV H2 E1 E2. cbn [fst snd] in *. unfold transform in *.
  destruct (frame_ok r1 (nth 1 h 0) (nth 1 l 0) HV) as (al & EA). rewrite EA in E1. cbn [bind] in E1.
  replace ((List.length h <? 2)%nat || (List.length k <? 2)%nat || (List.length l <? 2)%nat) with false in * by lia. injection E1 as <-.
  rewrite !upd_length. replace ((List.length h <? 2)%nat || (List.length k <? 2)%nat || (List.length l <? 2)%nat) with false by lia.
  assert (U : forall (a : list R) x, (2 <= List.length a)%nat -> nth 1 (upd a 1 x) 0 = x).
  { intros a x Ha. rewrite upd_nth. cbn [Nat.eqb]. now replace (1 <? List.length a)%nat with true by lia. }
  rewrite !U by assumption. assert (UU : forall (a : list R) x y, upd (upd a 1 x) 1 y = upd a 1 y) by (intros [|? [|? ?]] x y; reflexivity).
  unfold frame_alpha in *. cbn [In] in H2. destruct H2 as [H2|[H2|[H2|[]]]]; rewrite <- H2 in *; cbn [String.eqb Ascii.eqb Bool.eqb] in E2 |- *; cbn [bind] in E2 |- *; injection E2 as <-; rewrite !UU;
    f_equal; (f_equal; [f_equal|]); f_equal; field.
Qed.

(** REFUTED for CM: applying it twice moves the numbers twice *)
Theorem C52_cm_twice_refuted : forall v v1 v2, long v -> transform v "CM" = Ok v1 -> transform v1 "CM" = Ok v2 -> k_of v1 1 = k_of v 1 - 1 /\ k_of v2 1 = k_of v 1 - 2 /\ v2 <> v1.
Proof.
  intros v v1 v2 HL E1 E2.
  assert (V : valid_frame "CM") by (unfold valid_frame; cbn; tauto).
  destruct (C52_transform v "CM" HL V) as (w1 & F1 & _ & _ & _ & LL1 & I1). assert (w1 = v1) by congruence. subst w1.
  destruct (C52_transform v1 "CM" LL1 V) as (w2 & F2 & _ & _ & _ & _ & I2). assert (w2 = v2) by congruence. subst w2.
  destruct I1 as (_ & _ & _ & C1 & _), I2 as (_ & _ & _ & C2 & _). rewrite (C1 eq_refl) in C2. specialize (C2 eq_refl). rewrite (C1 eq_refl). split; [ring|]. split; [rewrite C2; ring|].
  intros ->. rewrite (C1 eq_refl) in C2. lra.
Qed.
Print Assumptions C52_absolute.

Example C52_example : exists v, transform ([0; -29 / 100; 1], [0; 0; 1], [0; 1 / 10; 1]) "cf" = Ok v /\ long v /\ h_of v 1 = - 26 / 100.
Proof. eexists. split; [reflexivity|]. split; [cbn; unfold long; cbn; lia|]. cbn. lra. Qed.
