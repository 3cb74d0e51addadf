(** C134: text files of scaling factors (model: ScaleFileModel.v). *)
From Coq Require Import Reals Lra Lia ZifyBool ZifyNat.
From Verif Require Import Base TimeModel Arr HarmModel HarmProofs SpatialModel SpatialSpec SpatialProofs SpatialProofs2 SpatialProofs5 ScaleFileModel.
From Verif Require PropSlr.
Close Scope Z_scope.
Close Scope R_scope.
Open Scope nat_scope.

(** ** reading fails *)
Lemma key_eqb_ok a b : key_eqb a b = true <-> a = b.
Proof.
  split; [|intros <-; destruct a; cbn; try reflexivity; apply Nat.eqb_refl].
  destruct a, b; cbn; intros H; try reflexivity; try discriminate H. apply Nat.eqb_eq in H. rewrite H. reflexivity.
Qed.
Lemma lookup_none d k : ~ In k (map fst d) -> lookup d k = Err KeyError.
Proof.
  intros N. unfold lookup. destruct (find _ (rev d)) as [p|] eqn:E; [|reflexivity]. exfalso. apply find_some in E. destruct E as [I E]. apply key_eqb_ok in E. apply N. rewrite E. apply in_map. apply in_rev. exact I.
Qed.
Lemma lookup_cases d k : (exists v, lookup d k = Ok v) \/ lookup d k = Err KeyError.
Proof. unfold lookup. destruct (find _ (rev d)) as [p|]; [left; eexists|right]; reflexivity. Qed.
Lemma combine_keys {A B} (l : list A) (l' : list B) x : In x (map fst (combine l l')) -> In x l.
Proof. revert l'. induction l as [|a l IH]; intros [|b l']; cbn; try tauto. intros [H|H]; [left; exact H|right; exact (IH _ H)]. Qed.

(** refuted: a file with the columns the reader expects, and that the writer writes, cannot be read by any object if a line is left after the header: the factors are looked for in a column
    data, the columns call them kfactor (KeyError).  Nothing is returned for any columns without that name *)
Theorem C134_columns : forall columns lon0 lat0 dlon dlat s l ls, ~ In KData columns -> from_ascii columns lon0 lat0 dlon dlat s (l :: ls) = Err KeyError.
Proof.
  intros columns lon0 lat0 dlon dlat s l ls N. unfold from_ascii. cbn [read_factors]. unfold read_factor at 1.
  assert (K : lookup (combine (filter (fun c => negb (key_eqb c KTime)) columns) l) KData = Err KeyError).
  { apply lookup_none. intros I. apply combine_keys, filter_In in I. tauto. }
  cbn [lon lat data mask error magnitude fill]. rewrite K.
  destruct (lookup_cases (combine (filter (fun c => negb (key_eqb c KTime)) columns) l) KLon) as [[x ->]| ->]; [|reflexivity]. cbn [bind].
  destruct (lookup_cases (combine (filter (fun c => negb (key_eqb c KTime)) columns) l) KLat) as [[y ->]| ->]; reflexivity.
Qed.
Theorem C134_default_columns : forall lon0 lat0 dlon dlat s l ls, from_ascii default_columns lon0 lat0 dlon dlat s (l :: ls) = Err KeyError.
Proof. intros. apply C134_columns. cbn. intuition discriminate. Qed.
(** refuted: with any names of the columns a new object cannot read a line either: it has no arrays for errors and magnitudes *)
Theorem C134_new_object : forall columns lon0 lat0 dlon dlat s l ls, error s = None -> exists e, from_ascii columns lon0 lat0 dlon dlat s (l :: ls) = Err e.
Proof.
  intros columns lon0 lat0 dlon dlat s l ls N. unfold from_ascii. cbn [read_factors]. unfold read_factor at 1. cbn [lon lat data mask error magnitude fill]. rewrite N.
  destruct (lookup _ KLon); cbn [bind]; [|eexists; reflexivity]. destruct (lookup _ KLat); cbn [bind]; [|eexists; reflexivity]. destruct (lookup _ KData); cbn [bind]; [|eexists; reflexivity].
  destruct (py_index _ _); cbn [bind]; [|eexists; reflexivity]. destruct (py_index _ _); cbn [bind]; [|eexists; reflexivity]. destruct (lookup _ KError); cbn [bind put]; eexists; reflexivity.
Qed.
Theorem C134_new_object_type : forall lon0 lat0 dlon dlat s x y v e g i j ls, error s = None ->
  py_index (length lat0) (Rfloor ((90 - y) / dlat)) = Ok i -> py_index (length lon0) (Rtrunc (x / dlon)) = Ok j ->
  from_ascii [KLon; KLat; KData; KError; KMagnitude] lon0 lat0 dlon dlat s ([x; y; v; e; g] :: ls) = Err TypeError.
Proof. intros lon0 lat0 dlon dlat s x y v e g i j ls N E1 E2. unfold from_ascii. cbn. rewrite E1, E2. cbn. rewrite N. reflexivity. Qed.
(** an empty file gives zeros, which are missing values when the fill value is 0 *)
Theorem C134_empty : forall columns lon0 lat0 dlon dlat s, error s = None -> magnitude s = None ->
  exists r, from_ascii columns lon0 lat0 dlon dlat s [] = Ok r /\ lon r = lon0 /\ lat r = lat0 /\ rows (data r) = length lat0 /\ cols (data r) = length lon0 /\ error r = None
  /\ forall i j, get (data r) i j 0 = Some 0%R /\ (get (mask r) i j 0 = true <-> fill s = Some (Some 0%R)).
Proof.
  intros columns lon0 lat0 dlon dlat s E G. unfold from_ascii. cbn [read_factors bind]. rewrite E, G. unfold update_mask, shape_eqb. cbn [fill mask data full rows cols depth error magnitude mask_of bind get].
  destruct (fill s) as [f|] eqn:F.
  - rewrite !Nat.eqb_refl. cbn [andb negb]. eexists. split; [reflexivity|]. cbn. repeat (split; [reflexivity|]). intros i j. unfold veqb. destruct f as [f|]; [destruct (Req_EM_T 0 f)|]; cbn.
    + subst f. split; [reflexivity|]. split; reflexivity.
    + split; [reflexivity|]. split; [discriminate|]. intros X. injection X as ->. lra.
    + split; [reflexivity|]. split; discriminate.
  - eexists. split; [reflexivity|]. cbn. do 5 (split; [reflexivity|]). intros i j. split; [reflexivity|]. split; intros X; discriminate X.
Qed.

(** ** writing *)
(** a cell that is written: not masked, and not the fill value *)
Definition valid (s : factors) (i j : nat) : Prop :=
  i < rows (data s) /\ j < cols (data s) /\ get (mask s) i j 0 = false /\ (forall v f, get (data s) i j 0 = Some v -> fill s = Some (Some f) -> v <> f).
Definition written (s : factors) : list (nat * nat) :=
  filter (fun p => differs (get (data s) (fst p) (snd p) 0) (fill s) && negb (get (mask s) (fst p) (snd p) 0)) (cells (data s)).
Lemma written_ok s i j : In (i, j) (written s) <-> valid s i j.
Proof.
  unfold written. rewrite filter_In. unfold cells. rewrite in_flat_map. cbn [fst snd].
  assert (D : differs (get (data s) i j 0) (fill s) = true <-> forall v f, get (data s) i j 0 = Some v -> fill s = Some (Some f) -> v <> f).
  { unfold differs. destruct (fill s) as [[f|]|]; [|split; [intros _ v f _ H; discriminate H|]|split; [intros _ v f _ H; discriminate H|reflexivity]].
    - unfold veqb. destruct (get (data s) i j 0) as [v|]; [|split; [intros _ v f' H; discriminate H|reflexivity]]. destruct (Req_EM_T v f) as [X|X]; cbn.
      + split; [discriminate|]. intros H. exfalso. exact (H v f eq_refl eq_refl X).
      + split; [|reflexivity]. intros _ v' f' H1 H2. injection H1 as <-. injection H2 as <-. exact X.
    - intros _. destruct (get (data s) i j 0); reflexivity. }
  unfold valid. rewrite andb_true_iff, D. rewrite negb_true_iff. split.
  - intros ((k & I1 & I2) & A & B). apply in_seq in I1. apply in_map_iff in I2. destruct I2 as (q & X & I2). injection X as -> ->. apply in_seq in I2. repeat split; try lia; assumption.
  - intros (A & B & C & E). split; [|split; assumption]. exists i. split; [apply in_seq; lia|]. apply in_map_iff. exists j. split; [reflexivity|]. apply in_seq. lia.
Qed.
(** refuted: an object without errors writes nothing but TypeError as soon as a cell is valid *)
Theorem C134_write_new : forall rd s i j, error s = None -> valid s i j -> to_ascii rd s = Err TypeError.
Proof.
  intros rd s i j N V. apply written_ok in V. unfold to_ascii. fold (written s). destruct (written s) as [|p t]; [destruct V|]. cbn [mapM]. rewrite N. reflexivity.
Qed.

(** ** an object with errors and magnitudes (as kfactor gives) can read what it wrote, if the columns are named lon, lat, data, error, magnitude *)
Definition grid_of {A} (a : arr A) (lon lat : list R) : Prop := rows a = length lat /\ cols a = length lon /\ depth a = None.
Definition named : list key := [KLon; KLat; KData; KError; KMagnitude].
Section Back.
Variables (V E G : nat -> nat -> R) (dlon dlat a b : R) (lo la : list R).
Hypothesis GG : global_grid dlon dlat a b lo la.
Let line (p : nat * nat) : list R := [nth (snd p) lo 0%R; nth (fst p) la 0%R; V (fst p) (snd p); E (fst p) (snd p); G (fst p) (snd p)].
Lemma get_put x i j v : i < rows x -> j < cols x -> put (Some x) i j v = Ok (Some (setcell x i j (Some v))).
Proof. intros A B. unfold put. apply Nat.ltb_lt in A, B. rewrite A, B. reflexivity. Qed.
Lemma one_line st p ex gx : fst p < length la -> snd p < length lo -> lon st = lo -> lat st = la -> error st = Some ex -> magnitude st = Some gx -> grid_of ex lo la -> grid_of gx lo la ->
  read_factor named dlon dlat st (line p) = Ok (mkf (setcell (data st) (fst p) (snd p) (Some (V (fst p) (snd p)))) (setcell (mask st) (fst p) (snd p) false)
    (Some (setcell ex (fst p) (snd p) (Some (E (fst p) (snd p))))) (Some (setcell gx (fst p) (snd p) (Some (G (fst p) (snd p))))) lo la (fill st)).
Proof.
  intros Hi Hj HL HA HE HG (E1 & E2 & _) (G1 & G2 & _). destruct p as [i j]. cbn [fst snd] in *. unfold read_factor, line. cbn [fst snd].
  change (lookup (combine named _) KLon) with (Ok (nth j lo 0%R)). change (lookup (combine named _) KLat) with (Ok (nth i la 0%R)). change (lookup (combine named _) KData) with (Ok (V i j)).
  change (lookup (combine named _) KError) with (Ok (E i j)). change (lookup (combine named _) KMagnitude) with (Ok (G i j)). cbn [bind].
  rewrite HL, HA, HE, HG. rewrite (grid_row dlon dlat a b lo la i GG Hi), py_index_nat by exact Hi. cbn [bind]. rewrite (grid_col dlon dlat a b lo la j GG Hj), py_index_nat by exact Hj. cbn [bind].
  rewrite get_put by lia. cbn [bind]. rewrite get_put by lia. cbn [bind]. rewrite !upd_same by assumption. reflexivity.
Qed.
Definition listed (ps : list (nat * nat)) (i j : nat) : bool := existsb (fun p => (i =? fst p) && (j =? snd p)) ps.
Lemma setcell_grid {A} (x : arr A) i j v : grid_of x lo la -> grid_of (setcell x i j v) lo la.
Proof. intros H. exact H. Qed.
Lemma read_back : forall ps st ex gx, (forall p, In p ps -> fst p < length la /\ snd p < length lo) -> lon st = lo -> lat st = la -> error st = Some ex -> magnitude st = Some gx ->
  grid_of ex lo la -> grid_of gx lo la -> grid_of (data st) lo la -> grid_of (mask st) lo la ->
  exists r ex' gx', read_factors named dlon dlat st (map line ps) = Ok r /\ lon r = lo /\ lat r = la /\ fill r = fill st /\ error r = Some ex' /\ magnitude r = Some gx'
  /\ grid_of (data r) lo la /\ grid_of (mask r) lo la /\ grid_of ex' lo la /\ grid_of gx' lo la
  /\ forall i j, get (data r) i j 0 = (if listed ps i j then Some (V i j) else get (data st) i j 0)
     /\ get (mask r) i j 0 = (if listed ps i j then false else get (mask st) i j 0)
     /\ get ex' i j 0 = (if listed ps i j then Some (E i j) else get ex i j 0)
     /\ get gx' i j 0 = (if listed ps i j then Some (G i j) else get gx i j 0).
Proof.
  induction ps as [|p ps IH]; intros st ex gx B HL HA HE HG S1 S2 S3 S4.
  - exists st, ex, gx. cbn. split; [reflexivity|]. do 9 (split; [assumption || reflexivity|]). intros i j. repeat split.
  - destruct (B p (or_introl eq_refl)) as [Bi Bj].
    cbn [map read_factors]. rewrite (one_line st p ex gx Bi Bj HL HA HE HG S1 S2). cbn [bind].
    match goal with |- context [read_factors _ _ _ ?s' _] => destruct (IH s' (setcell ex (fst p) (snd p) (Some (E (fst p) (snd p)))) (setcell gx (fst p) (snd p) (Some (G (fst p) (snd p)))))
      as (r & ex' & gx' & R & A1 & A2 & A3 & A4 & A5 & A6 & A7 & A8 & A9 & C); try reflexivity; try (apply setcell_grid; assumption); [intros q I; apply B; right; exact I|] end.
    exists r, ex', gx'. split; [exact R|]. split; [exact A1|]. split; [exact A2|]. split; [exact A3|]. split; [exact A4|]. split; [exact A5|]. split; [exact A6|]. split; [exact A7|]. split; [exact A8|]. split; [exact A9|].
    intros i j. destruct (C i j) as (C1 & C2 & C3 & C4). cbn [data mask] in C1, C2. rewrite C1, C2, C3, C4. unfold setcell, set_lm. cbn [get listed existsb]. fold (listed ps i j).
    destruct (listed ps i j); [rewrite orb_true_r; repeat split; reflexivity|]. rewrite orb_false_r.
    destruct (Nat.eqb_spec i (fst p)) as [->|]; [|repeat split; reflexivity]. destruct (Nat.eqb_spec j (snd p)) as [->|]; cbn [andb]; repeat split; reflexivity.
Qed.
End Back.
(** one line of a file: its values are stored in the cell of its coordinates, and its coordinates are stored in the axes, in place of the even ones *)
Theorem C134_line : forall lon0 lat0 dlon dlat s x y v e g i j ex gx, error s = Some ex -> magnitude s = Some gx -> grid_of ex lon0 lat0 -> grid_of gx lon0 lat0 -> fill s = None ->
  i < length lat0 -> j < length lon0 -> Rfloor ((90 - y) / dlat) = Z.of_nat i -> Rtrunc (x / dlon) = Z.of_nat j ->
  exists r ex' gx', from_ascii named lon0 lat0 dlon dlat s [[x; y; v; e; g]] = Ok r /\ error r = Some ex' /\ magnitude r = Some gx' /\
  length (lon r) = length lon0 /\ length (lat r) = length lat0 /\ (forall k, nth k (lon r) 0%R = if k =? j then x else nth k lon0 0%R) /\ (forall k, nth k (lat r) 0%R = if k =? i then y else nth k lat0 0%R) /\
  forall a b, get (data r) a b 0 = (if (a =? i) && (b =? j) then Some v else Some 0%R) /\ get (mask r) a b 0 = false /\
    get ex' a b 0 = (if (a =? i) && (b =? j) then Some e else get ex a b 0) /\ get gx' a b 0 = (if (a =? i) && (b =? j) then Some g else get gx a b 0).
Proof.
  intros lon0 lat0 dlon dlat s x y v e g i j ex gx HE HG (E1 & E2 & _) (G1 & G2 & _) HF Hi Hj Ei Ej.
  assert (U : forall (l : list R) q w k, q < length l -> nth k (upd l q w) 0%R = if k =? q then w else nth k l 0%R).
  { clear. induction l as [|z l IH]; intros q w k H; cbn in H; [lia|]. destruct q, k; cbn; try reflexivity. apply IH. lia. }
  unfold from_ascii. change (filter (fun c => negb (key_eqb c KTime)) named) with named. cbn [read_factors]. unfold read_factor.
  change (lookup (combine named _) KLon) with (Ok x). change (lookup (combine named _) KLat) with (Ok y). change (lookup (combine named _) KData) with (Ok v).
  change (lookup (combine named _) KError) with (Ok e). change (lookup (combine named _) KMagnitude) with (Ok g). cbn [bind lon lat data mask error magnitude fill].
  rewrite Ei, Ej, HE, HG, !py_index_nat by assumption. cbn [bind]. rewrite get_put by lia. cbn [bind]. rewrite get_put by lia. cbn [bind]. unfold update_mask. cbn [fill]. rewrite HF.
  do 3 eexists. split; [reflexivity|]. cbn [error magnitude lon lat data mask]. split; [reflexivity|]. split; [reflexivity|]. rewrite !upd_length. do 2 (split; [reflexivity|]). split; [intros k; apply U; exact Hj|]. split; [intros k; apply U; exact Hi|].
  intros a b. unfold setcell, set_lm. cbn [get full]. destruct ((a =? i) && (b =? j)); repeat split; reflexivity.
Qed.
Print Assumptions C134_line.
Lemma listed_ok ps i j : listed ps i j = true <-> In (i, j) ps.
Proof.
  unfold listed. rewrite existsb_exists. split.
  - intros ([x y] & I & H). cbn [fst snd] in H. apply andb_true_iff in H. destruct H as [H1 H2]. apply Nat.eqb_eq in H1, H2. subst. exact I.
  - intros I. exists (i, j). split; [exact I|]. cbn [fst snd]. rewrite !Nat.eqb_refl. reflexivity.
Qed.
Theorem C134_reread : forall rd dlon dlat a b s ex gx t et gt V E G,
  global_grid dlon dlat a b (lon s) (lat s) -> grid_of (data s) (lon s) (lat s) -> error s = Some ex -> magnitude s = Some gx -> grid_of ex (lon s) (lat s) -> grid_of gx (lon s) (lat s) ->
  (forall i j, valid s i j -> get (data s) i j 0 = Some (V i j) /\ get ex i j 0 = Some (E i j) /\ get gx i j 0 = Some (G i j)) ->
  (forall x, In x (lon s) \/ In x (lat s) -> rd x = x) -> (forall i j, valid s i j -> rd (V i j) = V i j /\ rd (E i j) = E i j /\ rd (G i j) = G i j) ->
  error t = Some et -> magnitude t = Some gt -> grid_of et (lon s) (lat s) -> grid_of gt (lon s) (lat s) -> fill t = fill s ->
  exists ls r ex' gx', to_ascii rd s = Ok ls /\ from_ascii named (lon s) (lat s) dlon dlat t ls = Ok r /\ lon r = lon s /\ lat r = lat s /\ error r = Some ex' /\ magnitude r = Some gx'
  /\ (forall i j, valid s i j -> get (mask r) i j 0 = false /\ get (data r) i j 0 = Some (V i j) /\ get ex' i j 0 = Some (E i j) /\ get gx' i j 0 = Some (G i j))
  /\ (forall i j, ~ valid s i j -> get (data r) i j 0 = Some 0%R /\ (get (mask r) i j 0 = true <-> fill s = Some (Some 0%R))).
Proof.
  intros rd dlon dlat a b s ex gx t et gt V E G GG (D1 & D2 & D3) He Hg (X1 & X2 & X3) (Y1 & Y2 & Y3) HV RA RV Te Tg Tet Tgt TF.
  set (line := fun p : nat * nat => [nth (snd p) (lon s) 0%R; nth (fst p) (lat s) 0%R; V (fst p) (snd p); E (fst p) (snd p); G (fst p) (snd p)]).
  assert (W : to_ascii rd s = Ok (map line (written s))).
  { unfold to_ascii. fold (written s). apply PropSlr.mapM_map. intros [i j] I. apply written_ok in I. cbn [fst snd]. rewrite He, Hg.
    destruct (HV i j I) as (V1 & V2 & V3). destruct (RV i j I) as (R1 & R2 & R3). destruct I as (B1 & B2 & _ & _). rewrite D1 in B1. rewrite D2 in B2. unfold at_cell, line. rewrite X1, X2, Y1, Y2.
    pose proof B1 as B1'. pose proof B2 as B2'. apply Nat.ltb_lt in B1', B2'. rewrite B1', B2'. cbn [andb bind]. rewrite V1, V2, V3. cbn [tok app fst snd]. rewrite R1, R2, R3.
    rewrite !RA by (first [left; apply nth_In; exact B2|right; apply nth_In; exact B1]). reflexivity. }
  assert (BB : forall p, In p (written s) -> fst p < length (lat s) /\ snd p < length (lon s)).
  { intros [i j] I. apply written_ok in I. destruct I as (B1 & B2 & _). cbn [fst snd]. lia. }
  destruct (read_back V E G dlon dlat a b (lon s) (lat s) GG (written s)
     (mkf (full (length (lat s)) (length (lon s)) None (Some 0%R)) (full (length (lat s)) (length (lon s)) None false) (error t) (magnitude t) (lon s) (lat s) (fill t)) et gt BB
     eq_refl eq_refl Te Tg Tet Tgt ltac:(repeat split) ltac:(repeat split))
    as (r & ex' & gx' & R & A1 & A2 & A3 & A4 & A5 & (A61 & A62 & A63) & (A71 & A72 & A73) & (A81 & A82 & A83) & (A91 & A92 & A93) & C).
  cbn [fill data mask full get] in A3, C. rewrite TF in A3.
  assert (FR : from_ascii named (lon s) (lat s) dlon dlat t (map line (written s)) = update_mask r).
  { unfold from_ascii. change (filter _ named) with named. unfold line. rewrite R. reflexivity. }
  destruct (fill s) as [f|] eqn:F.
  - exists (map line (written s)).
    set (k := mkarr (rows (data r)) (cols (data r)) (depth (data r)) (fun i j t => get (mask r) i j t || veqb (get (data r) i j t) f || isnan (get (data r) i j t))).
    assert (U : update_mask r = Ok (mkf (masked_set k f (data r)) k (Some (masked_set k f ex')) (Some (masked_set k f gx')) (lon r) (lat r) (fill r))).
    { unfold update_mask. rewrite A3, A4, A5. unfold mask_of, shape_eqb. rewrite A61, A62, A63, A71, A72, A73, A81, A82, A83, A91, A92, A93, !Nat.eqb_refl. cbn [andb negb bind]. unfold k. rewrite A61, A62, A63. reflexivity. }
    eexists _, _, _. split; [exact W|]. split; [rewrite FR; exact U|]. cbn [lon lat error magnitude data mask]. split; [exact A1|]. split; [exact A2|]. split; [reflexivity|]. split; [reflexivity|]. split.
    + intros i j Vij. pose proof Vij as In'. apply written_ok, listed_ok in In'. destruct (C i j) as (C1 & C2 & C3 & C4). rewrite In' in C1, C2, C3, C4.
      assert (K : get k i j 0 = false).
      { unfold k. cbn [get]. rewrite C1, C2. cbn [isnan orb]. rewrite orb_false_r. destruct f as [f|]; [|reflexivity]. cbn. destruct (Req_EM_T (V i j) f) as [Z|]; [|reflexivity].
        exfalso. destruct (HV i j Vij) as (V1 & _ & _). destruct Vij as (_ & _ & _ & Vf). exact (Vf (V i j) f V1 F Z). }
      unfold masked_set. cbn [get]. rewrite K. split; [reflexivity|]. split; [exact C1|]. split; [exact C3|exact C4].
    + intros i j Vij. assert (L : listed (written s) i j = false) by (apply not_true_iff_false; intros L; apply listed_ok, written_ok in L; exact (Vij L)).
      destruct (C i j) as (C1 & C2 & C3 & C4). rewrite L in C1, C2. unfold masked_set. cbn [get].
      assert (K : get k i j 0 = veqb (Some 0%R) f) by (unfold k; cbn [get]; rewrite C1, C2; cbn [isnan orb]; apply orb_false_r). rewrite K, C1. unfold veqb. destruct f as [f|]; [destruct (Req_EM_T 0 f) as [Z|Z]|].
      * subst f. split; [reflexivity|]. split; reflexivity.
      * split; [reflexivity|]. split; [discriminate|]. intros H. injection H as H. exfalso. apply Z. symmetry. exact H.
      * split; [reflexivity|]. split; discriminate.
  - exists (map line (written s)), r, ex', gx'. split; [exact W|]. split; [rewrite FR; unfold update_mask; rewrite A3; reflexivity|]. split; [exact A1|]. split; [exact A2|]. split; [exact A4|]. split; [exact A5|]. split.
    + intros i j Vij. apply written_ok, listed_ok in Vij. destruct (C i j) as (C1 & C2 & C3 & C4). rewrite Vij in C1, C2, C3, C4. split; [exact C2|]. split; [exact C1|]. split; [exact C3|exact C4].
    + intros i j Vij. assert (L : listed (written s) i j = false) by (apply not_true_iff_false; intros L; apply listed_ok, written_ok in L; exact (Vij L)).
      destruct (C i j) as (C1 & C2 & C3 & C4). rewrite L in C1, C2. split; [exact C1|]. rewrite C2. split; discriminate.
Qed.

(** the hypotheses are met: factors of two cells, the second one missing *)
Definition two (x y : val) : arr val := mkarr 1 2 None (fun _ j _ => match j with 0 => x | _ => y end).
Definition ex_s : factors := mkf (two (Some 2%R) (Some 0%R)) (mkarr 1 2 None (fun _ j _ => match j with 0 => false | _ => true end)) (Some (two (Some 1%R) (Some 0%R))) (Some (two (Some 3%R) (Some 0%R)))
  [1/2; 3/2]%R [89 + 1/2]%R (Some (Some 0%R)).
Lemma ex_valid i j : valid ex_s i j <-> i = 0 /\ j = 0.
Proof.
  unfold valid. cbn. split.
  - intros (A & B & C & _). destruct j; [lia|discriminate C].
  - intros [-> ->]. repeat split; try lia. intros v f H1 H2. injection H1 as <-. injection H2 as <-. lra.
Qed.
Example C134_meets :
  global_grid 1 1 (1/2) (1/2) (lon ex_s) (lat ex_s) /\ valid ex_s 0 0 /\ ~ valid ex_s 0 1
  /\ (exists ls r, to_ascii (fun x => x) ex_s = Ok ls /\ from_ascii named (lon ex_s) (lat ex_s) 1 1 ex_s ls = Ok r /\ get (data r) 0 0 0 = Some 2%R /\ get (mask r) 0 1 0 = true)
  /\ from_ascii default_columns (lon ex_s) (lat ex_s) 1 1 ex_s [[1/2; 89 + 1/2; 2; 1; 3]%R] = Err KeyError.
Proof.
  assert (GG : global_grid 1 1 (1/2) (1/2) (lon ex_s) (lat ex_s)).
  { repeat split; try Lra.lra; cbn; intros k Hk; [destruct k as [|[|k]]; [| |exfalso; lia]|destruct k as [|k]; [|exfalso; lia]]; cbn; Lra.lra. }
  split; [exact GG|]. split; [apply ex_valid; split; reflexivity|]. split; [rewrite ex_valid; lia|]. split; [|apply C134_default_columns].
  destruct (C134_reread (fun x => x) 1 1 (1/2) (1/2) ex_s (two (Some 1%R) (Some 0%R)) (two (Some 3%R) (Some 0%R)) ex_s (two (Some 1%R) (Some 0%R)) (two (Some 3%R) (Some 0%R))
    (fun _ _ => 2%R) (fun _ _ => 1%R) (fun _ _ => 3%R) GG) as (ls & r & ex' & gx' & W & R & _ & _ & _ & _ & P1 & P2); try (repeat split; reflexivity).
  { intros i j V. apply ex_valid in V. destruct V as [-> ->]. repeat split; reflexivity. }
  exists ls, r. split; [exact W|]. split; [exact R|]. split; [apply P1, ex_valid; split; reflexivity|]. apply P2; [rewrite ex_valid; lia|reflexivity].
Qed.
