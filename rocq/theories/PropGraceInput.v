(** C13 grace_input_months. *)
From Coq Require Import Reals Lra Sorted.
From Verif Require Import Base DestripeModel DestripeProofs LinAlg RegressModel RegressProofs GraceModel PropGraceDate PropSmooth.
Close Scope Z_scope.
Open Scope R_scope.

(** the months used: from the first to the last without the missing ones, in increasing order *)
Theorem C13_months : forall a b missing, StronglySorted Z.lt (selected a b missing) /\
  forall m, In m (selected a b missing) <-> (a <= m <= b)%Z /\ ~ In m missing.
Proof.
  intros a b missing. unfold selected. split; [apply filter_sorted, arange_sorted|].
  intros m. rewrite filter_In, in_arange, negb_true_iff. split; intros [H1 H2]; split; try lia.
  - intros H. apply mem_in in H. congruence.
  - destruct (mem m missing) eqn:E; auto. apply mem_in in E. contradiction.
Qed.

(** the row of a table for a month, when it is the only one *)
Definition only_row (t : table) (g : Z) (r : list R) : Prop :=
  exists before after, t = before ++ (g, r) :: after /\ forall x, In x (before ++ after) -> fst x <> g.
(** which table and column replaces a coefficient, and whether only for the single accelerometer months *)
Definition source (p : products) (f : field) (l m : nat) : option (option table * nat * bool) :=
  match f, l, m with
  | Clm, 2, 0 => Some (c20 p, 0, false) | Eclm, 2, 0 => Some (c20 p, 1, false)
  | Clm, 2, 1 => Some (c21 p, 0, true) | Slm, 2, 1 => Some (c21 p, 1, true) | Eclm, 2, 1 => Some (c21 p, 2, true) | Eslm, 2, 1 => Some (c21 p, 3, true)
  | Clm, 2, 2 => Some (c22 p, 0, true) | Slm, 2, 2 => Some (c22 p, 1, true) | Eclm, 2, 2 => Some (c22 p, 2, true) | Eslm, 2, 2 => Some (c22 p, 3, true)
  | Clm, 3, 0 => Some (c30 p, 0, true) | Eclm, 3, 0 => Some (c30 p, 1, true)
  | Clm, 4, 0 => Some (c40 p, 0, true) | Eclm, 4, 0 => Some (c40 p, 1, true)
  | Clm, 5, 0 => Some (c50 p, 0, true) | Eclm, 5, 0 => Some (c50 p, 1, true)
  | _, _, _ => None
  end%nat.
(** the degree one coefficients and their column *)
Definition deg1_column (f : field) (l m : nat) : option nat :=
  match f, l, m with Clm, 1, 0 => Some 0 | Clm, 1, 1 => Some 1 | Slm, 1, 1 => Some 2 | _, _, _ => None end%nat.
(** the atmospheric correction of a coefficient: last line of the file of the month, for orders not above the degree *)
Definition atm_value (lmax mmax : nat) (a : atm_file) (l m : nat) (v : R * R) : Prop :=
  (exists before after, a = before ++ (l, m, fst v, snd v) :: after /\ (forall x, In x after -> fst (fst x) <> (l, m))) \/
  ((forall x, In x a -> fst (fst x) <> (l, m)) /\ v = (0, 0)).

Definition key := (field * nat * nat)%type.
Definition keqb (a b : key) : bool := let '(f, l, m) := a in let '(f', l', m') := b in (feqb f f' && Nat.eqb l l' && Nat.eqb m m')%bool.
Lemma feqb_ok a b : feqb a b = true <-> a = b.
Proof. destruct a, b; cbn; split; congruence. Qed.
Lemma keqb_ok a b : keqb a b = true <-> a = b.
Proof.
  destruct a as [[f l] m], b as [[f' l'] m']. unfold keqb. rewrite !andb_true_iff, feqb_ok, !Nat.eqb_eq. split; [intros [[-> ->] ->]; auto|]. intros E. injection E as -> -> ->. auto.
Qed.
(** position of a key among the targets *)
Fixpoint index (k : key) (ts : list key) : option nat :=
  match ts with [] => None | t :: r => if keqb k t then Some 0%nat else match index k r with Some q => Some (S q) | None => None end end.
Lemma index_in k ts q : index k ts = Some q -> In k ts.
Proof.
  revert q. induction ts as [|t ts IH]; intros q H; [discriminate|]. cbn in H. destruct (keqb k t) eqn:E; [apply keqb_ok in E; left; auto|].
  destruct (index k ts); [|discriminate]. right. eapply IH; eauto.
Qed.
Lemma assign_spec lmax mmax rows i ts : NoDup ts -> ts <> [] -> forall j y y', assign lmax mmax rows i j ts y = Ok y' -> exists r, rows = [r] /\
  forall f l m k, y' f l m k = match index (f, l, m) ts with Some q => if Nat.eqb k i then nth (j + q) r 0 else y f l m k | None => y f l m k end.
Proof.
  induction ts as [|[[f0 l0] m0] ts IH]; intros ND N j y y' H; [congruence|]. cbn [assign] in H. destruct ((l0 <=? lmax) && (m0 <=? mmax))%nat%bool; [|discriminate].
  destruct rows as [|r [|]]; try discriminate. exists r. split; [reflexivity|]. inversion ND as [|? ? N1 N2]; subst.
  assert (ST : forall f l m k, set4 y f0 l0 m0 i (nth j r 0) f l m k = if keqb (f, l, m) (f0, l0, m0) then (if Nat.eqb k i then nth j r 0 else y f l m k) else y f l m k).
  { intros f l m k. unfold set4, keqb. destruct (feqb f f0 && Nat.eqb l l0 && Nat.eqb m m0)%bool; cbn [andb]; auto. }
  destruct ts as [|t ts].
  - cbn in H. injection H as <-. intros f l m k. rewrite ST. cbn [index]. destruct (keqb (f, l, m) (f0, l0, m0)); auto. rewrite Nat.add_0_r. reflexivity.
  - destruct (IH N2 ltac:(discriminate) _ _ _ H) as (r' & ER & G). injection ER as <-. intros f l m k. rewrite G. cbn [index].
    destruct (keqb (f, l, m) (f0, l0, m0)) eqn:E.
    + assert (NI : index (f, l, m) (t :: ts) = None). { destruct (index (f, l, m) (t :: ts)) eqn:Q; auto. apply index_in in Q. apply keqb_ok in E. rewrite E in Q. contradiction. }
      cbn [index] in NI. rewrite NI. rewrite ST, E, Nat.add_0_r. reflexivity.
    + change (if keqb (f, l, m) t then Some 0%nat else match index (f, l, m) ts with Some q => Some (S q) | None => None end) with (index (f, l, m) (t :: ts)).
      destruct (index (f, l, m) (t :: ts)) as [q|]; rewrite ST, E; [|reflexivity]. replace (j + S q)%nat with (S j + q)%nat by lia. reflexivity.
Qed.
Lemma put_spec lmax mmax t ts cond : NoDup ts -> ts <> [] -> forall ms i y y', put_months lmax mmax t ts cond ms i y = Ok y' ->
  forall k, (forall f l m, (k < i \/ i + length ms <= k)%nat -> y' f l m k = y f l m k) /\
  ((i <= k < i + length ms)%nat -> let g := nth (k - i) ms 0%Z in
   (cond g = true -> rows_of t g <> [] -> exists r, rows_of t g = [r] /\ forall f l m, y' f l m k = match index (f, l, m) ts with Some q => nth q r 0 | None => y f l m k end) /\
   (cond g = false \/ rows_of t g = [] -> forall f l m, y' f l m k = y f l m k)).
Proof.
  intros ND N. induction ms as [|g ms IH]; intros i y y' H k.
  - cbn in H. injection H as <-. split; auto. cbn. lia.
  - cbn [put_months] in H. set (c := (negb (length (rows_of t g) =? 0)%nat && cond g)%bool) in *.
    destruct (if c then assign lmax mmax (rows_of t g) i 0 ts y else Ok y) as [y1|] eqn:E; [|discriminate]. cbn [bind] in H.
    assert (Y1 : (c = true -> exists r, rows_of t g = [r] /\ forall f l m k, y1 f l m k = match index (f, l, m) ts with Some q => if Nat.eqb k i then nth q r 0 else y f l m k | None => y f l m k end) /\
                 (c = false -> y1 = y)).
    { split; intros C; rewrite C in E; [|congruence]. apply assign_spec in E; auto. }
    destruct Y1 as [Y1 Y2]. destruct (IH (S i) y1 y' H k) as [A B]. cbn [length].
    assert (OFF : forall f l m, k <> i -> y1 f l m k = y f l m k).
    { intros f l m D. destruct c eqn:C; [|rewrite Y2; auto]. destruct (Y1 eq_refl) as (r & _ & G). rewrite G. destruct (Nat.eqb_spec k i); [contradiction|]. destruct (index _ ts); auto. }
    split; [intros f l m D; rewrite A by lia; apply OFF; lia|]. intros R. destruct (Nat.eq_dec k i) as [->|D].
    + rewrite Nat.sub_diag. cbn [nth]. split.
      * intros C1 C2. assert (C : c = true). { unfold c. rewrite C1. destruct (rows_of t g); [congruence|]. reflexivity. }
        destruct (Y1 C) as (r & ER & G). exists r. split; auto. intros f l m. rewrite A by lia. rewrite G, Nat.eqb_refl. reflexivity.
      * intros C1 f l m. rewrite A by lia. rewrite Y2; auto. unfold c. destruct C1 as [->| ->]; [apply andb_false_r|reflexivity].
    + replace (k - i)%nat with (S (k - S i)) by lia. cbn [nth]. destruct (B ltac:(lia)) as [B1 B2]. split.
      * intros C1 C2. destruct (B1 C1 C2) as (r & ER & G). exists r. split; auto. intros f l m. rewrite G. destruct (index _ ts); auto.
      * intros C1 f l m. rewrite B2 by auto. auto.
Qed.
Lemma rows_in t g : rows_of t g = [] <-> ~ In g (map fst t).
Proof.
  unfold rows_of. induction t as [|[g' r] t IH]; cbn; [tauto|]. destruct (Z.eqb_spec g' g) as [->|N]; cbn; [split; [discriminate|tauto]|]. rewrite IH. tauto.
Qed.
Lemma rows_only t g r : rows_of t g = [r] <-> only_row t g r.
Proof.
  unfold rows_of, only_row. split.
  - induction t as [|[g' r'] t IH]; cbn; [discriminate|]. destruct (Z.eqb_spec g' g) as [->|N]; cbn.
    + intros E. injection E as -> E. exists [], t. split; auto. cbn. intros x Hx C. assert (I : In x (filter (fun r => (fst r =? g)%Z) t)) by (apply filter_In; split; auto; apply Z.eqb_eq; auto).
      destruct (filter _ t); [destruct I|discriminate].
    + intros E. destruct (IH E) as (b & a & -> & H). exists ((g', r') :: b), a. split; auto. cbn. intros x [<-|Hx]; auto.
  - intros (b & a & -> & H). rewrite filter_app, map_app. cbn. rewrite Z.eqb_refl. cbn.
    assert (Z0 : forall u, (forall x, In x u -> fst x <> g) -> filter (fun r : Z * list R => (fst r =? g)%Z) u = []).
    { induction u as [|x u IHu]; intros Hu; [reflexivity|]. cbn. destruct (Z.eqb_spec (fst x) g); [exfalso; apply (Hu x); [left; auto|auto]|]. apply IHu. intros; apply Hu; right; auto. }
    rewrite !Z0; auto; intros x Hx; apply H; apply in_or_app; auto.
Qed.
Lemma covered_ok t ms : covered t ms = true <-> forall g, In g ms -> In g (map fst t).
Proof.
  unfold covered. rewrite forallb_forall. split; intros H g Hg; [apply mem_in; auto|apply mem_in; apply H; auto].
Qed.
Lemma replace_spec lmax mmax ms needed cond t ts y y' : NoDup ts -> ts <> [] -> (forall g, In g ms -> cond g = true -> In g needed) ->
  replace lmax mmax ms needed cond t ts y = Ok y' ->
  forall k, (k < length ms)%nat -> let g := nth k ms 0%Z in
  forall f l m, match t, index (f, l, m) ts with
  | Some t, Some q => if cond g then exists r, only_row t g r /\ y' f l m k = nth q r 0 else y' f l m k = y f l m k
  | _, _ => y' f l m k = y f l m k end.
Proof.
  intros ND N CN H k L g f l m. unfold replace in H. destruct t as [t|]; [|injection H as <-; reflexivity].
  destruct (covered t needed) eqn:C; [|discriminate]. destruct (put_spec lmax mmax t ts cond ND N ms 0 y y' H k) as [_ B]. destruct (B ltac:(lia)) as [B1 B2].
  rewrite Nat.sub_0_r in B1, B2. fold g in B1, B2. destruct (cond g) eqn:CG.
  - assert (R : rows_of t g <> []). { rewrite rows_in. rewrite covered_ok in C. intros Q. apply Q, C, CN; auto. apply nth_In. exact L. }
    destruct (B1 eq_refl R) as (r & ER & G). rewrite G. destruct (index (f, l, m) ts) as [q|]; auto. exists r. split; auto. apply rows_only. exact ER.
  - rewrite B2 by auto. destruct (index (f, l, m) ts); reflexivity.
Qed.
(** the modelled value of degree one: quadratic, annual and semi-annual functions fitted to the whole series *)
Definition deg1_model (d : degree1) (c : nat) (t : R) : R :=
  regress_model 2 [1 / 2; 1] (20033 / 10) (d_times d) (map (fun r => nth c (snd r) 0) (d_table d)) t.
Lemma put_deg1_spec lmax mmax t model times : forall ms i y y', put_deg1 lmax mmax t model ms times i y = Ok y' ->
  forall k, (forall f l m, (k < i \/ i + length ms <= k)%nat -> y' f l m k = y f l m k) /\
  ((i <= k < i + length ms)%nat -> let g := nth (k - i) ms 0%Z in
    exists r, (rows_of t g = [r] \/ (rows_of t g = [] /\ exists h, model = Some h /\ r = [h 0%nat (nth k times 0); h 1%nat (nth k times 0); h 2%nat (nth k times 0)])) /\
    forall f l m, y' f l m k = match index (f, l, m) deg1_targets with Some q => nth q r 0 | None => y f l m k end).
Proof.
  assert (ND : NoDup deg1_targets). { repeat constructor; cbn; intuition congruence. }
  assert (N : deg1_targets <> []) by discriminate.
  induction ms as [|g ms IH]; intros i y y' H k.
  - cbn in H. injection H as <-. split; auto. cbn. lia.
  - cbn [put_deg1] in H. set (a := match model with Some h => _ | None => _ end) in H. destruct a as [y1|] eqn:E; [|discriminate]. cbn [bind] in H.
    assert (Y1 : exists r, (rows_of t g = [r] \/ (rows_of t g = [] /\ exists h, model = Some h /\ r = [h 0%nat (nth i times 0); h 1%nat (nth i times 0); h 2%nat (nth i times 0)])) /\
       forall f l m k, y1 f l m k = match index (f, l, m) deg1_targets with Some q => if Nat.eqb k i then nth q r 0 else y f l m k | None => y f l m k end).
    { unfold a in E. destruct model as [h|].
      - destruct (rows_of t g) as [|r0 rr] eqn:Q.
        + apply assign_spec in E; auto. destruct E as (r & ER & G). exists r. split; [right; split; auto; exists h; split; auto; congruence|]. exact G.
        + apply assign_spec in E; auto. destruct E as (r & ER & G). exists r. split; [left; exact ER|]. exact G.
      - apply assign_spec in E; auto. destruct E as (r & ER & G). exists r. split; [left; exact ER|]. exact G. }
    destruct Y1 as (r & ER & G). destruct (IH (S i) y1 y' H k) as [A B]. cbn [length].
    assert (OFF : forall f l m, k <> i -> y1 f l m k = y f l m k). { intros f l m D. rewrite G. destruct (Nat.eqb_spec k i); [contradiction|]. destruct (index _ deg1_targets); auto. }
    split; [intros f l m D; rewrite A by lia; apply OFF; lia|]. intros R. destruct (Nat.eq_dec k i) as [->|D].
    + rewrite Nat.sub_diag. cbn [nth]. exists r. split; [exact ER|]. intros f l m. rewrite A by lia. rewrite G, Nat.eqb_refl. reflexivity.
    + replace (k - i)%nat with (S (k - S i)) by lia. cbn [nth]. destruct (B ltac:(lia)) as (r' & ER' & G'). exists r'. split; auto. intros f l m. rewrite G', OFF by auto. reflexivity.
Qed.
Lemma deg1_index f l m : index (f, l, m) deg1_targets = deg1_column f l m.
Proof. destruct f, l as [|[|l]], m as [|[|m]]; reflexivity. Qed.
Lemma atm_read_ok lmax mmax a l m : (l <= lmax)%nat -> (m <= mmax)%nat -> atm_value lmax mmax a l m (atm_read lmax mmax a l m).
Proof.
  intros L M. unfold atm_read, atm_value. apply Nat.leb_le in L, M.
  induction a as [|[[[l1 m1] c] s] a IH] using rev_ind; [right; split; [intros x []|reflexivity]|].
  rewrite fold_left_app. cbn [fold_left]. revert IH. generalize (fold_left (fun (acc : R * R) (x : nat * nat * R * R) => let '(l1, m1, c, s) := x in if ((l1 <=? lmax) && (m1 <=? mmax) && Nat.eqb l1 l && Nat.eqb m1 m)%nat%bool then (c, s) else acc) a (0, 0)). intros v IH.
  destruct (Nat.eqb_spec l1 l) as [->|Nl]; [destruct (Nat.eqb_spec m1 m) as [->|Nm]|].
  - rewrite L, M. cbn [andb]. left. exists a, []. split; [reflexivity|]. intros x [].
  - rewrite andb_false_r. destruct IH as [(b & af & -> & H)|[H E]].
    + left. exists b, (af ++ [(l, m1, c, s)]). rewrite <- app_assoc. split; auto. intros x Hx. apply in_app_or in Hx. destruct Hx as [Hx|[<-|[]]]; auto. cbn. congruence.
    + right. split; auto. intros x Hx. apply in_app_or in Hx. destruct Hx as [Hx|[<-|[]]]; auto. cbn. congruence.
  - rewrite andb_false_r. cbn [andb]. destruct IH as [(b & af & -> & H)|[H E]].
    + left. exists b, (af ++ [(l1, m1, c, s)]). rewrite <- app_assoc. split; auto. intros x Hx. apply in_app_or in Hx. destruct Hx as [Hx|[<-|[]]]; auto. cbn. congruence.
    + right. split; auto. intros x Hx. apply in_app_or in Hx. destruct Hx as [Hx|[<-|[]]]; auto. cbn. congruence.
Qed.
Ltac lia_split := split; [lia|reflexivity].
(** the correction file of a month *)
Definition atm_period (files : atm_file * atm_file * atm_file) (g : Z) (a : atm_file) : Prop :=
  let '(gae, gaf, gag) := files in ((50 <= g <= 97)%Z /\ a = gae) \/ ((98 <= g <= 161)%Z /\ a = gaf) \/ ((161 < g)%Z /\ a = gag) \/ ((g < 50)%Z /\ a = []).
Definition atm_sign (d : dset) : R := match d with GSM => -1 | GAC | GAA => 1 | GAB | GAD => 0 end.
(** the coefficient before the atmospheric correction *)
Definition base_value (p : products) (g : Z) (time : R) (file : gfile) (f : field) (l m : nat) (v : R) : Prop :=
  match deg1_column f l m, deg1 p with
  | Some c, Some d =>
    (exists r, only_row (d_table d) g r /\ v = nth c r 0) \/
    (model_deg1 p = true /\ (forall r, ~ In (g, r) (d_table d)) /\ v = deg1_model d c time)
  | _, _ =>
    match source p f l m with
    | Some (Some t, c, single) =>
      if (negb single || (176 <? g)%Z)%bool then exists r, only_row t g r /\ v = nth c r 0 else v = g_get file f l m
    | _ => v = g_get file f l m
    end
  end.
Definition atm_part (p : products) (lmax mmax : nat) (d : dset) (g : Z) (f : field) (l m : nat) (w : R) : Prop :=
  match atm p with
  | None => w = 0
  | Some files => exists a v, atm_period files g a /\ atm_value lmax mmax a l m v /\
      w = match f with Clm => atm_sign d * fst v | Slm => atm_sign d * snd v | _ => 0 end
  end.
Lemma single_in ms g : In g ms -> is_single g = true -> In g (filter is_single ms).
Proof. intros. apply filter_In. auto. Qed.
(** every coefficient of every month: the value of the month's row of the requested product if there is one for it (all months for C20 and
    degree 1, months after 176 for the others), otherwise the file value; plus the atmospheric correction *)
Theorem C13_coefficients : forall read lmax mmax ds a b missing p ms times out,
  grace_input_months read lmax mmax ds a b missing p = Ok (ms, times, out) ->
  ms = selected a b missing /\ length times = length ms /\
  forall k, (k < length ms)%nat -> let g := nth k ms 0%Z in exists file, read g = Some (Ok file) /\ nth k times 0 = g_time file /\
  forall f l m, (m <= l <= lmax)%nat -> (m <= mmax)%nat -> exists v w, base_value p g (g_time file) file f l m v /\ atm_part p lmax mmax ds g f l m w /\ out f l m k = v + w.
Proof.
  intros read lmax mmax ds a b missing p ms times out H. unfold grace_input_months in H.
  set (ms0 := selected a b missing) in *. destruct (load read lmax mmax ms0) as [fs|] eqn:EL; [|discriminate]. cbn [bind] in H.
  unfold load in EL. pose proof (mapM_nth _ _ _ EL) as [LF NF].
  match type of H with bind ?e _ = _ => destruct e as [y1|] eqn:E1; [|discriminate] end. cbn [bind] in H.
  match type of H with bind ?e _ = _ => destruct e as [y2|] eqn:E2; [|discriminate] end. cbn [bind] in H.
  match type of H with bind ?e _ = _ => destruct e as [y3|] eqn:E3; [|discriminate] end. cbn [bind] in H.
  match type of H with bind ?e _ = _ => destruct e as [y4|] eqn:E4; [|discriminate] end. cbn [bind] in H.
  match type of H with bind ?e _ = _ => destruct e as [y5|] eqn:E5; [|discriminate] end. cbn [bind] in H.
  match type of H with bind ?e _ = _ => destruct e as [y6|] eqn:E6; [|discriminate] end. cbn [bind] in H.
  match type of H with bind ?e _ = _ => destruct e as [y7|] eqn:E7; [|discriminate] end. cbn [bind] in H.
  match type of H with bind ?e _ = _ => destruct e as [y8|] eqn:E8; [|discriminate] end. cbn [bind] in H.
  assert (INJ : forall u v : list Z * list R * cube, Ok u = Ok v -> v = u) by congruence. apply INJ in H. injection H as -> -> ->.
  split; [reflexivity|]. split; [rewrite map_length; auto|].
  intros k Lk g. pose proof (NF k 0%Z nofile Lk) as NFk. fold g in NFk. set (file := nth k fs nofile) in *.
  destruct (read g) as [rg|] eqn:ER; [|discriminate]. destruct rg as [fl|]; [|discriminate]. cbn [bind] in NFk.
  destruct ((lmax <=? g_lmax fl) && (mmax <=? g_mmax fl))%nat%bool; [|discriminate].
  assert (INJ1 : fl = file) by congruence. subst fl. exists file. split; [reflexivity|].
  assert (TM : nth k (map g_time fs) 0 = g_time file).
  { rewrite (nth_indep _ 0 (g_time nofile)) by (rewrite map_length; lia). rewrite map_nth. reflexivity. }
  split; [exact TM|].
  assert (Y0 : forall f l m, cube_of fs f l m k = g_get file f l m) by reflexivity.
  intros f l m Lm Mm.
  assert (V : base_value p g (g_time file) file f l m (y7 f l m k)).
  { assert (S6 : match source p f l m with
      | Some (Some t, c, single) => if (negb single || (176 <? g)%Z)%bool then exists r, only_row t g r /\ y6 f l m k = nth c r 0 else y6 f l m k = g_get file f l m
      | _ => y6 f l m k = g_get file f l m end).
    { apply replace_spec with (k := k) (f := f) (l := l) (m := m) in E1; auto; try discriminate; [|repeat constructor; cbn; intuition congruence].
      apply replace_spec with (k := k) (f := f) (l := l) (m := m) in E2; auto using single_in; try discriminate; [|repeat constructor; cbn; intuition congruence].
      apply replace_spec with (k := k) (f := f) (l := l) (m := m) in E3; auto using single_in; try discriminate; [|repeat constructor; cbn; intuition congruence].
      apply replace_spec with (k := k) (f := f) (l := l) (m := m) in E4; auto using single_in; try discriminate; [|repeat constructor; cbn; intuition congruence].
      apply replace_spec with (k := k) (f := f) (l := l) (m := m) in E5; auto using single_in; try discriminate; [|repeat constructor; cbn; intuition congruence].
      apply replace_spec with (k := k) (f := f) (l := l) (m := m) in E6; auto using single_in; try discriminate; [|repeat constructor; cbn; intuition congruence].
      fold g in E1, E2, E3, E4, E5, E6. unfold is_single in *. specialize (Y0 f l m).
      clearbody g file. clear - E1 E2 E3 E4 E5 E6 Y0.
      destruct f; destruct l as [|[|[|[|[|[|l]]]]]]; destruct m as [|[|[|m]]];
        cbn [index keqb feqb Nat.eqb andb source negb orb] in *;
        destruct (c20 p), (c21 p), (c22 p), (c30 p), (c40 p), (c50 p); cbn [orb negb]; try congruence;
        repeat match goal with H : ?a = ?b |- _ => first [rewrite H in *; clear H] end; auto. }
    unfold base_value. unfold replace_deg1 in E7. destruct (deg1 p) as [d|]; [|assert (y7 = y6) by congruence; subst y7; destruct (deg1_column f l m); exact S6].
    destruct (model_deg1 p) eqn:EM.
    - destruct (put_deg1_spec _ _ _ _ _ _ _ _ _ E7 k) as [_ B]. destruct (B ltac:(lia)) as (r & Q & G). rewrite Nat.sub_0_r in Q. fold g in Q. rewrite deg1_index in G || idtac.
      specialize (G f l m). rewrite deg1_index in G. destruct (deg1_column f l m) as [c|] eqn:EC; [|rewrite G; exact S6].
      destruct Q as [Q|(Q & h & EH & ->)]; [left; exists r; split; [apply rows_only; exact Q|exact G]|].
      right. split; [reflexivity|]. split; [intros r Hr; apply rows_in in Q; apply Q; change g with (fst (g, r)); apply in_map; exact Hr|].
      rewrite G. injection EH as <-. rewrite TM.
      assert (C : (c = 0 \/ c = 1 \/ c = 2)%nat). { clear - EC. destruct f, l as [|[|l]], m as [|[|m]]; cbn in EC; try discriminate; injection EC as <-; auto. }
      destruct C as [->|[->| ->]]; reflexivity.
    - destruct (covered (d_table d) ms0); [|discriminate]. destruct (put_deg1_spec _ _ _ _ _ _ _ _ _ E7 k) as [_ B]. destruct (B ltac:(lia)) as (r & Q & G). rewrite Nat.sub_0_r in Q. fold g in Q.
      specialize (G f l m). rewrite deg1_index in G. destruct (deg1_column f l m) as [c|]; [|rewrite G; exact S6].
      destruct Q as [Q|(Q & h & EH & _)]; [|discriminate]. left. exists r. split; [apply rows_only; exact Q|exact G]. }
  exists (y7 f l m k). unfold atm_part. destruct (atm p) as [[[gae gaf] gag]|].
  - destruct (ecmwf lmax mmax gae gaf gag ms0) as [c|] eqn:EC; [|discriminate]. cbn [bind] in E8.
    unfold ecmwf in EC. destruct (existsb _ ms0 && _ && _)%bool; [discriminate|].
    assert (INJ2 : c = (fun l m i => match atm_of gae gaf gag (nth i ms0 0%Z) with Some a => atm_read lmax mmax a l m | None => (0, 0) end)) by congruence.
    assert (INJ3 : y8 = apply_atm lmax mmax ds c y7) by congruence. rewrite INJ3. unfold apply_atm.
    replace ((m <=? l) && (l <=? lmax) && (m <=? mmax))%nat%bool with true by (symmetry; rewrite !andb_true_iff, !Nat.leb_le; lia).
    set (a0 := match atm_of gae gaf gag g with Some a => a | None => [] end).
    assert (CV : c l m k = atm_read lmax mmax a0 l m). { rewrite INJ2. fold g. unfold a0. destruct (atm_of gae gaf gag g); reflexivity. }
    eexists. split; [exact V|]. split.
    + exists a0, (atm_read lmax mmax a0 l m). split; [|split; [apply atm_read_ok; lia|reflexivity]].
      unfold atm_period, a0, atm_of. destruct ((50 <=? g) && (g <=? 97))%Z%bool eqn:B1; [left; lia_split|].
      destruct ((98 <=? g) && (g <=? 161))%Z%bool eqn:B2; [right; left; lia_split|].
      destruct (161 <? g)%Z eqn:B3; [right; right; left; lia_split|]. right; right; right; lia_split.
    + rewrite CV. unfold atm_sign. destruct f, ds; lra.
  - exists 0. split; [exact V|]. split; [reflexivity|]. assert (y8 = y7) by congruence. subst y8. lra.
Qed.

(** the functions fitted to the degree one series: quadratic, semi-annual and annual *)
Definition season (b : nat -> R) (t : R) : R :=
  b 0%nat + b 1%nat * (t - 2003.3) + b 2%nat * (t - 2003.3) ^ 2 + b 3%nat * sin (2 * PI * (2 * t)) + b 4%nat * cos (2 * PI * (2 * t)) +
  b 5%nat * sin (2 * PI * t) + b 6%nat * cos (2 * PI * t).
Definition seasonal_times (ts : list R) : Prop := forall b, (forall t, In t ts -> season b t = 0) -> forall j, (j < 7)%nat -> b j = 0.
(** column [c] of the degree one table *)
Definition column (d : degree1) (c : nat) (i : nat) : R := nth c (snd (nth i (d_table d) (0%Z, []))) 0.
Lemma season_comb b t : season b t = rsum 7 (fun j => b j * model_col 2 (20033 / 10) [1 / 2; 1] j t).
Proof.
  cbn [rsum]. unfold model_col. cbn [Nat.leb Nat.sub Nat.div Nat.divmod fst snd nth Nat.even pow].
  unfold season. replace (2 * PI * t / (1 / 2)) with (2 * PI * (2 * t)) by field. replace (2 * PI * t / 1) with (2 * PI * t) by field. lra.
Qed.
Theorem C13_degree1_model : forall d c, length (d_times d) = length (d_table d) -> seasonal_times (d_times d) ->
  exists b, (forall t, deg1_model d c t = season b t) /\
  (forall b', rsum (length (d_table d)) (fun i => (column d c i - season b (nth i (d_times d) 0)) ^ 2) <=
              rsum (length (d_table d)) (fun i => (column d c i - season b' (nth i (d_times d) 0)) ^ 2)) /\
  (forall x, (forall i, (i < length (d_table d))%nat -> column d c i = season x (nth i (d_times d) 0)) -> forall t, deg1_model d c t = season x t).
Proof.
  intros d c LE HS. set (n := length (d_times d)). set (A := fun j i => model_col 2 (20033 / 10) [1 / 2; 1] j (at_ (d_times d) i)).
  set (dd := at_ (map (fun r : Z * list R => nth c (snd r) 0) (d_table d))).
  assert (I : independent 7 n A).
  { intros x Hx j Lj. apply HS; auto. intros t Ht. destruct (In_nth _ _ 0 Ht) as (i & Li & <-). rewrite season_comb. transitivity (comb 7 A x i); [unfold comb, A; apply rsum_ext; intros; reflexivity|]. apply Hx. exact Li. }
  assert (CB : forall b i, comb 7 A b i = season b (nth i (d_times d) 0)).
  { intros b i. rewrite season_comb. unfold comb, A. apply rsum_ext. intros; reflexivity. }
  assert (DD : forall i, (i < n)%nat -> dd i = column d c i).
  { intros i Li. unfold dd, at_, column. rewrite (nth_indep _ 0 (nth c (snd (0%Z, [])) 0)) by (rewrite map_length; unfold n in Li; lia).
    rewrite (map_nth (fun r : Z * list R => nth c (snd r) 0)). reflexivity. }
  set (b := lsq 7 n A dd).
  assert (V : forall t, deg1_model d c t = season b t). { intros t. rewrite season_comb. reflexivity. }
  exists b. split; [exact V|]. split.
  - intros b'. rewrite <- LE. fold n. pose proof (lsq_min 7 n A dd b') as M.
    unfold dot in M. rewrite (rsum_ext _ _ (fun i => (dd i - comb 7 A b i) * (dd i - comb 7 A b i))). 2:{ intros i Li. rewrite CB, DD by auto. ring. }
    rewrite (rsum_ext _ (fun i => (column d c i - season b' (nth i (d_times d) 0)) ^ 2) (fun i => (dd i - comb 7 A b' i) * (dd i - comb 7 A b' i))). 2:{ intros i Li. rewrite CB, DD by auto. ring. }
    exact M.
  - intros x Hx t. rewrite V, !season_comb. apply rsum_ext. intros j Lj. f_equal. apply (lsq_exact 7 n A dd x); auto.
    intros i Li. rewrite CB, DD by auto. apply Hx. unfold n in Li. lia.
Qed.
(** when the requested products are complete the harmonics are returned *)
Definition complete (t : option table) (ms : list Z) : Prop := match t with None => True | Some t => forall g, In g ms -> exists r, only_row t g r end.
Lemma assign_total lmax mmax r i ts : (forall f l m, In (f, l, m) ts -> (l <= lmax)%nat /\ (m <= mmax)%nat) -> forall j y, exists y', assign lmax mmax [r] i j ts y = Ok y'.
Proof.
  induction ts as [|[[f l] m] ts IH]; intros H j y; [eexists; reflexivity|]. cbn [assign]. destruct (H f l m (or_introl eq_refl)) as [A B].
  apply Nat.leb_le in A, B. rewrite A, B. cbn [andb]. apply IH. intros; eapply H; right; eauto.
Qed.
Lemma put_total lmax mmax t ts cond : (forall f l m, In (f, l, m) ts -> (l <= lmax)%nat /\ (m <= mmax)%nat) ->
  forall ms i y, (forall g, In g ms -> cond g = true -> exists r, rows_of t g = [r]) -> exists y', put_months lmax mmax t ts cond ms i y = Ok y'.
Proof.
  intros HT. induction ms as [|g ms IH]; intros i y H; [eexists; reflexivity|]. cbn [put_months].
  assert (N : forall g, In g ms -> cond g = true -> exists r, rows_of t g = [r]) by (intros; apply H; [right|]; auto).
  destruct (cond g) eqn:C.
  - destruct (H g (or_introl eq_refl) C) as [r ->]. cbn [length Nat.eqb negb andb]. destruct (assign_total lmax mmax r i ts HT 0%nat y) as [y' ->]. cbn [bind]. apply IH; auto.
  - rewrite andb_false_r. cbn [bind]. apply IH; auto.
Qed.
Lemma replace_total lmax mmax ms needed cond t ts y : (forall f l m, In (f, l, m) ts -> (l <= lmax)%nat /\ (m <= mmax)%nat) ->
  (forall g, In g ms -> cond g = true -> In g needed) -> complete t needed -> exists y', replace lmax mmax ms needed cond t ts y = Ok y'.
Proof.
  intros HT HN HC. unfold replace. destruct t as [t|]; [|eauto]. cbn in HC.
  assert (C : covered t needed = true).
  { apply covered_ok. intros g Hg. destruct (HC g Hg) as (r & b & a & -> & _). rewrite map_app. apply in_or_app. right. left. reflexivity. }
  rewrite C. apply put_total; auto. intros g Hg Cg. destruct (HC g (HN g Hg Cg)) as [r Hr]. exists r. apply rows_only. exact Hr.
Qed.
Lemma put_deg1_total lmax mmax t model times : (1 <= lmax)%nat -> (1 <= mmax)%nat ->
  forall ms i y, (forall g, In g ms -> (exists r, rows_of t g = [r]) \/ (rows_of t g = [] /\ model <> None)) -> exists y', put_deg1 lmax mmax t model ms times i y = Ok y'.
Proof.
  intros LL LM. assert (HT : forall f l m, In (f, l, m) deg1_targets -> (l <= lmax)%nat /\ (m <= mmax)%nat).
  { intros f l m [E|[E|[E|[]]]]; injection E as <- <- <-; lia. }
  induction ms as [|g ms IH]; intros i y H; [eexists; reflexivity|]. cbn [put_deg1].
  assert (S1 : exists y', match model with
    | Some f => match rows_of t g with [] => assign lmax mmax [[f 0%nat (nth i times 0); f 1%nat (nth i times 0); f 2%nat (nth i times 0)]] i 0 deg1_targets y
                 | _ => assign lmax mmax (rows_of t g) i 0 deg1_targets y end
    | None => assign lmax mmax (rows_of t g) i 0 deg1_targets y end = Ok y').
  { destruct (H g (or_introl eq_refl)) as [[r ->]|[-> N]].
    - destruct model; apply assign_total; auto.
    - destruct model; [apply assign_total; auto|congruence]. }
  destruct S1 as [y' S1]. destruct model; [destruct (rows_of t g)|]; rewrite S1; cbn [bind]; apply IH; intros; apply H; right; auto.
Qed.
Theorem C13_total : forall read lmax mmax ds a b missing p, (5 <= lmax)%nat -> (2 <= mmax)%nat ->
  let ms := selected a b missing in
  let single := filter (fun g => (176 <? g)%Z) ms in
  (forall g, In g ms -> exists file, read g = Some (Ok file) /\ (lmax <= g_lmax file)%nat /\ (mmax <= g_mmax file)%nat) ->
  complete (c20 p) ms -> complete (c21 p) single -> complete (c22 p) single -> complete (c30 p) single -> complete (c40 p) single -> complete (c50 p) single ->
  (forall d, deg1 p = Some d -> forall g, In g ms -> (exists r, only_row (d_table d) g r) \/ (model_deg1 p = true /\ ~ In g (map fst (d_table d)))) ->
  (atm p = None \/ mmax = lmax) ->
  exists times out, grace_input_months read lmax mmax ds a b missing p = Ok (ms, times, out).
Proof.
  intros read lmax mmax ds a b missing p L5 M2 ms single HR H20 H21 H22 H30 H40 H50 HD HA. unfold grace_input_months. fold ms.
  destruct (mapM_all (fun m => match read m with
                 | None => Err KeyError
                 | Some r => do f <- r; if ((lmax <=? g_lmax f) && (mmax <=? g_mmax f))%nat%bool then Ok f else Err ValueError end) ms) as [fs EF].
  { intros g Hg. destruct (HR g Hg) as (file & -> & A & B). cbn [bind]. apply Nat.leb_le in A, B. rewrite A, B. eexists; reflexivity. }
  unfold load. rewrite EF. cbn [bind]. change (filter is_single ms) with single.
  assert (SI : forall g, In g ms -> is_single g = true -> In g single) by (intros; apply single_in; auto).
  Ltac targets := intros ? ? ? HT; cbn in HT; repeat match goal with H : _ \/ _ |- _ => destruct H | H : (_, _, _) = (_, _, _) |- _ => injection H as <- <- <- | H : False |- _ => destruct H end; lia.
  edestruct (replace_total lmax mmax ms ms (fun _ => true) (c20 p)) as [y1 ->]; [|auto|auto|]; [targets|]. cbn [bind].
  edestruct (replace_total lmax mmax ms single is_single (c21 p)) as [y2 ->]; [|auto|auto|]; [targets|]. cbn [bind].
  edestruct (replace_total lmax mmax ms single is_single (c22 p)) as [y3 ->]; [|auto|auto|]; [targets|]. cbn [bind].
  edestruct (replace_total lmax mmax ms single is_single (c30 p)) as [y4 ->]; [|auto|auto|]; [targets|]. cbn [bind].
  edestruct (replace_total lmax mmax ms single is_single (c40 p)) as [y5 ->]; [|auto|auto|]; [targets|]. cbn [bind].
  edestruct (replace_total lmax mmax ms single is_single (c50 p)) as [y6 ->]; [|auto|auto|]; [targets|]. cbn [bind].
  assert (Y7 : exists y7, replace_deg1 lmax mmax ms (deg1 p) (model_deg1 p) (map g_time fs) y6 = Ok y7).
  { unfold replace_deg1. destruct (deg1 p) as [d|]; [|eauto]. specialize (HD d eq_refl). destruct (model_deg1 p).
    - apply put_deg1_total; try lia. intros g Hg. destruct (HD g Hg) as [[r Hr]|[_ N]]; [left; exists r; apply rows_only; auto|right; split; [apply rows_in; auto|discriminate]].
    - assert (C : covered (d_table d) ms = true).
      { apply covered_ok. intros g Hg. destruct (HD g Hg) as [(r & bf & af & -> & _)|[E _]]; [|discriminate]. rewrite map_app. apply in_or_app. right. left. reflexivity. }
      rewrite C. apply put_deg1_total; try lia. intros g Hg. destruct (HD g Hg) as [[r Hr]|[E _]]; [left; exists r; apply rows_only; auto|discriminate]. }
  destruct Y7 as [y7 ->]. cbn [bind]. destruct (atm p) as [[[gae gaf] gag]|].
  - destruct HA as [HA|HA]; [discriminate|]. unfold ecmwf. rewrite HA, Nat.eqb_refl. cbn [negb]. rewrite andb_false_r. cbn [andb bind]. eauto.
  - cbn [bind]. eauto.
Qed.
(** a requested product without exactly one row for each month it is needed for makes the call fail *)
Theorem C13_incomplete : forall read lmax mmax ds a b missing p ms times out, (5 <= lmax)%nat -> (2 <= mmax)%nat ->
  grace_input_months read lmax mmax ds a b missing p = Ok (ms, times, out) ->
  let single := filter (fun g => (176 <? g)%Z) ms in
  complete (c20 p) ms /\ complete (c21 p) single /\ complete (c22 p) single /\ complete (c30 p) single /\ complete (c40 p) single /\ complete (c50 p) single /\
  (forall d, deg1 p = Some d -> model_deg1 p = false -> complete (Some (d_table d)) ms).
Proof.
  intros read lmax mmax ds a b missing p ms times out L5 M2 H single. destruct (C13_coefficients _ _ _ _ _ _ _ _ _ _ _ H) as (_ & _ & C).
  assert (K : forall g f l m, In g ms -> (m <= l <= lmax)%nat -> (m <= mmax)%nat -> exists time file v, base_value p g time file f l m v).
  { intros g f l m Hg Ll Lm. destruct (In_nth _ _ 0%Z Hg) as (k & Lk & E). destruct (C k Lk) as (file & _ & _ & V). destruct (V f l m Ll Lm) as (v & w & BV & _). rewrite E in BV. eauto. }
  assert (KS : forall g, In g single -> In g ms /\ (176 <? g)%Z = true) by (intros g Hg; apply filter_In in Hg; exact Hg).
  assert (K20 : complete (c20 p) ms).
  { unfold complete. destruct (c20 p) as [t|] eqn:E; auto. intros g Hg. destruct (K g Clm 2%nat 0%nat Hg ltac:(lia) ltac:(lia)) as (ti & fi & v & BV).
    unfold base_value in BV. cbn [deg1_column source] in BV. rewrite E in BV. cbn in BV. destruct BV as (r & Hr & _). eauto. }
  split; [exact K20|].
  Ltac one K KS E l m := unfold complete; match goal with |- match ?tt with _ => _ end => destruct tt as [tab|] eqn:E end; auto; intros g Hg; destruct (KS g Hg) as [Hg1 Hg2];
    destruct (K g Clm l m Hg1 ltac:(lia) ltac:(lia)) as (ti & fi & v & BV); unfold base_value in BV; cbn [deg1_column source] in BV; rewrite E, Hg2 in BV; cbn in BV; destruct BV as (r & Hr & _); eauto.
  split; [one K KS E 2%nat 1%nat|]. split; [one K KS E 2%nat 2%nat|]. split; [one K KS E 3%nat 0%nat|]. split; [one K KS E 4%nat 0%nat|]. split; [one K KS E 5%nat 0%nat|].
  intros d ED EM g Hg. destruct (K g Clm 1%nat 0%nat Hg ltac:(lia) ltac:(lia)) as (ti & fi & v & BV). unfold base_value in BV. cbn [deg1_column] in BV. rewrite ED in BV.
  destruct BV as [(r & Hr & _)|[F _]]; [eauto|congruence].
Qed.
(** with atmospheric corrections the call needs MMAX = LMAX *)
Theorem C13_corrections_order_refuted : forall read lmax mmax ds a b missing p q g, atm p = Some q -> In g (selected a b missing) -> (50 <= g)%Z -> mmax <> lmax -> mmax <> 0%nat ->
  forall out, grace_input_months read lmax mmax ds a b missing p <> Ok out.
Proof.
  intros read lmax mmax ds a b missing p q g EA Hg G50 N1 N0 out H. unfold grace_input_months in H. set (ms := selected a b missing) in *.
  repeat match type of H with bind ?e _ = _ => destruct e as [?|] eqn:?; [cbn [bind] in H|discriminate] end.
  rewrite EA in *. destruct q as [[gae gaf] gag].
  match goal with Q : bind (ecmwf _ _ _ _ _ _) _ = Ok _ |- _ => unfold ecmwf in Q end.
  assert (X : existsb (fun g => (50 <=? g)%Z) ms = true) by (apply existsb_exists; exists g; split; auto; lia). rewrite X in *.
  destruct (Nat.eqb_spec mmax lmax); [contradiction|]. destruct (Nat.eqb_spec mmax 0); [contradiction|]. cbn in *. discriminate.
Qed.
(** two months (4 and 180, months between left out), a C20 product and a degree one product with the month 180 modelled *)
Definition ex_file : gfile := mkfile 5 5 (fun f l m => match f with Clm => INR l | _ => 0 end) 2002.5.
Definition ex_prod : products := mkprod (Some [(4%Z, [7; 1]); (180%Z, [8; 2])]) (Some [(180%Z, [1; 2; 3; 4])]) None None None None
  (Some (mkdeg1 [(4%Z, [5; 6; 7])] [2002.5])) true (Some ([], [], [(0%nat, 0%nat, 9, 9); (0%nat, 0%nat, 10, 11)])).
Example C13_nonvacuous : exists times out, grace_input_months (fun _ => Some (Ok ex_file)) 5 5 GSM 4 180 (arange 5 180) ex_prod = Ok ([4; 180]%Z, times, out) /\
  out Clm 2%nat 0%nat 1%nat = 8 /\ out Clm 2%nat 1%nat 1%nat = 1 /\ out Clm 2%nat 1%nat 0%nat = 2 /\ out Clm 1%nat 1%nat 0%nat = 6 /\
  out Clm 0%nat 0%nat 0%nat = 0 /\ out Clm 0%nat 0%nat 1%nat = - 10.
Proof.
  unfold grace_input_months. replace (selected 4 180 (arange 5 180)) with [4; 180]%Z by (vm_compute; reflexivity).
  eexists. eexists. split; [cbn -[regress_model]; reflexivity|].
  repeat split; cbn; lra.
Qed.
