(** C130 custom_colormap (model: CptModel.v). *)
From Coq Require Import Reals Lra Lia String Ascii ZifyBool ZifyNat.
From Verif Require Import Base RegressModel RegressProofs TsModel CmrModel PropSlr PropSmooth CptModel PropCpt.
Close Scope Z_scope.
Close Scope string_scope.
Open Scope R_scope.

(** ** Specification *)
(** n colours at even positions from 0 to 1 *)
Definition even_table (n : nat) (colour : nat -> rgb) (t : list (R * rgb)) : Prop :=
  List.length t = n /\ forall i, (i < n)%nat -> nth_error t i = Some (INR i / (INR n - 1), colour i).
(** the number of colours of Seroussi: floor (0.7 N) - 1 *)
Definition seroussi_size (N n : nat) : Prop := (INR n + 1 <= 7 / 10 * INR N < INR n + 2).

(** ** Proofs *)
Lemma joughin_hue N i : (2 <= N)%nat -> (i < N)%nat -> nth_error (linspace (1 / 10) 1 N) i = Some (1 / 10 + 9 / 10 * (INR i / INR (N - 1))).
Proof.
  intros L Li. unfold linspace. destruct (Nat.eqb_spec N 1); [lia|]. unfold tab.
  assert (E : nth_error (seq 0 N) i = Some i) by (rewrite nth_error_nth' with (d := 0%nat) by (rewrite seq_length; exact Li); rewrite seq_nth by exact Li; reflexivity).
  rewrite (map_nth_error _ _ _ E). f_equal. field. apply not_0_INR. lia.
Qed.
Lemma unit_hue N i : (2 <= N)%nat -> (i < N)%nat -> nth_error (linspace 0 1 N) i = Some (INR i / INR (N - 1)).
Proof.
  intros L Li. unfold linspace. destruct (Nat.eqb_spec N 1); [lia|]. unfold tab.
  assert (E : nth_error (seq 0 N) i = Some i) by (rewrite nth_error_nth' with (d := 0%nat) by (rewrite seq_length; exact Li); rewrite seq_nth by exact Li; reflexivity).
  rewrite (map_nth_error _ _ _ E). f_equal. field. apply not_0_INR. lia.
Qed.
Lemma lin_len a b N : List.length (linspace a b N) = N.
Proof. unfold linspace. destruct (Nat.eqb_spec N 1) as [->|]; [reflexivity|]. apply tab_len. Qed.
Lemma frac_range N i : (2 <= N)%nat -> (i < N)%nat -> 0 <= INR i / INR (N - 1) <= 1.
Proof.
  intros L Li. assert (P : 0 < INR (N - 1)) by (apply lt_0_INR; lia). assert (A : INR i <= INR (N - 1)) by (apply le_INR; lia). pose proof (pos_INR i). split.
  - apply Rmult_le_pos; [lra|apply Rlt_le, Rinv_0_lt_compat; lra].
  - apply Rmult_le_reg_r with (INR (N - 1)); [lra|]. replace (INR i / INR (N - 1) * INR (N - 1)) with (INR i) by (field; lra). lra.
Qed.
Lemma number_ok (cs : list rgb) (colour : nat -> rgb) : List.length cs <> 1%nat -> (forall i, (i < List.length cs)%nat -> nth_error cs i = Some (colour i)) ->
  exists t, mapM (fun '(i, c) => if Req_EM_T (INR (List.length cs) - 1) 0 then Err ZeroDivision else Ok (INR i / (INR (List.length cs) - 1), c)) (combine (seq 0 (List.length cs)) cs) = Ok t /\ even_table (List.length cs) colour t.
Proof.
  intros N1 H. assert (NZ : INR (List.length cs) - 1 <> 0) by (intros E; apply N1, INR_eq; cbn [INR]; lra).
  rewrite (mapM_map _ (fun '(i, c) => (INR i / (INR (List.length cs) - 1), c))).
  - eexists. split; [reflexivity|]. assert (LC : List.length (combine (seq 0 (List.length cs)) cs) = List.length cs) by (rewrite combine_length, seq_length; lia). split; [rewrite map_length; exact LC|].
    intros i Li. assert (E : nth_error (combine (seq 0 (List.length cs)) cs) i = Some (i, colour i)).
    { specialize (H i Li). rewrite nth_error_nth' with (d := (0%nat, ((0, 0, 0) : rgb))) by (eapply Nat.lt_le_trans; [exact Li|apply Nat.eq_le_incl; symmetry; exact LC]). rewrite combine_nth by (rewrite seq_length; reflexivity). rewrite seq_nth by exact Li. rewrite (nth_error_nth _ _ _ H). reflexivity. }
    rewrite (map_nth_error _ _ _ E). reflexivity.
  - intros [i c] _. destruct (Req_EM_T _ 0); [contradiction|reflexivity].
Qed.
(** the names, in any case *)
Lemma upper_lower c d : lower_ascii c = lower_ascii d -> upper_ascii c = upper_ascii d.
Proof. 
  assert (Q : forall c, upper_ascii (lower_ascii c) = upper_ascii c) by (intros [[] [] [] [] [] [] [] []]; reflexivity).
  intros E. rewrite <- (Q c), <- (Q d), E. reflexivity.
Qed.
Lemma lower_upper c : lower_ascii (upper_ascii c) = lower_ascii c.
Proof. destruct c as [[] [] [] [] [] [] [] []]; reflexivity. Qed.
Lemma lower_idem s : lower (lower s) = lower s.
Proof. induction s as [|c s IH]; [reflexivity|]. cbn [lower]. rewrite IH. f_equal. destruct c as [[] [] [] [] [] [] [] []]; reflexivity. Qed.
Lemma capital_ok s t : capitalize t = t -> (capitalize s = t <-> alike s t).
Proof.
  intros Ht. split.
  - intros <-. clear Ht. unfold alike. destruct s as [|c s]; [reflexivity|]. cbn [capitalize lower]. rewrite lower_upper, lower_idem. reflexivity.
  - unfold alike. destruct s as [|c s], t as [|d t]; try discriminate; [reflexivity|]. cbn [lower]. intros [= E1 E2]. rewrite <- Ht. cbn [capitalize]. rewrite (upper_lower _ _ E1), E2. reflexivity.
Qed.
Lemma name_eqb s t : capitalize t = t -> String.eqb (capitalize s) t = true <-> alike s t.
Proof. intros H. rewrite String.eqb_eq. apply capital_ok, H. Qed.

(** the saturated colour of a hue goes back to its hue *)
Lemma fmod_ok x z : IZR z <= x < IZR z + 1 -> fmod1 x = x - IZR z.
Proof. intros H. unfold fmod1. rewrite (ip x z H). reflexivity. Qed.
Lemma hue_back h : 0 <= h < 1 -> rgb_to_hsv (hsv_to_rgb h 1 1) = (h, 1, 1).
Proof.
  intros H. unfold hsv_to_rgb. destruct (Req_EM_T 1 0) as [X|_]; [lra|]. unfold trunc. destruct (Rle_dec 0 (h * 6)) as [_|X]; [|lra].
  pose proof (ip_bounds (h * 6)) as B. set (i := Int_part (h * 6)) in *. clearbody i.
  assert (I0 : (0 <= i)%Z) by (apply Z.lt_succ_r, lt_IZR; rewrite succ_IZR; lra).
  assert (I1 : (i <= 5)%Z) by (apply Z.lt_succ_r, lt_IZR; cbn; lra).
  assert (C : (i = 0 \/ i = 1 \/ i = 2 \/ i = 3 \/ i = 4 \/ i = 5)%Z) by lia.
  destruct C as [E|[E|[E|[E|[E|E]]]]]; rewrite E in *; clear E; cbv zeta;
  (match goal with |- context [Z.modulo ?a ?b] => let t := eval compute in (Z.modulo a b) in change (Z.modulo a b) with t | _ => idtac end);
  cbn [Z.eqb Pos.eqb]; unfold rgb_to_hsv; 
  match goal with |- context [(Rmax (Rmax ?r ?g) ?b)] => replace (Rmax (Rmax r g) b) with 1 by mm; replace (Rmin (Rmin r g) b) with 0 by mm end;
  (destruct (Req_EM_T 0 1) as [X|_]; [lra|]); cbv zeta;
  rewrite ?Rminus_0_r, ?Rdiv_1;
  match goal with |- (fmod1 (?e / 6), _, _) = _ => assert (Q : e = h * 6 \/ e = h * 6 - 6) by (repeat match goal with |- context [Req_EM_T ?a ?b] => destruct (Req_EM_T a b) end; lra) end;
  (apply f_equal2; [apply f_equal2|]); try lra;
  (destruct Q as [Q | Q]; rewrite Q; [rewrite (fmod_ok _ 0) by lra|rewrite (fmod_ok _ (-1)) by lra]; lra).
Qed.
Lemma clip_ok h : 0 <= h <= 1 -> clip01 (1 / 10 + h) = Rmin 1 (1 / 10 + h).
Proof. intros H. unfold clip01. mm. Qed.

(** ** C130 *)
Definition frac (N i : nat) : R := INR i / INR (N - 1).
Lemma map_len_ok (N : nat) (l : list R) (g : R -> rgb) (hue : nat -> R) : List.length l = N -> (forall i, (i < N)%nat -> nth_error l i = Some (hue i)) -> forall i, (i < List.length (map g l))%nat -> nth_error (map g l) i = Some (g (hue i)).
Proof. intros L H i Li. rewrite map_length, L in Li. apply map_nth_error, H, Li. Qed.
Lemma even_ext n f g t : (forall i, (i < n)%nat -> f i = g i) -> even_table n f t -> even_table n g t.
Proof. intros H [L E]. split; [exact L|]. intros i Li. rewrite <- (H i Li). apply E, Li. Qed.
(** Joughin: saturated colours of the hues from 1/10 to 1, evenly *)
Theorem C130_joughin N name : (2 <= N)%nat -> alike name "Joughin" -> exists t, custom_colormap N name = Ok t /\ even_table N (fun i => hsv_colour (1 / 10 + 9 / 10 * frac N i) 1 1) t.
Proof.
  intros L A. unfold custom_colormap, colours_of. apply (name_eqb name "Joughin" eq_refl) in A. rewrite A. cbn [bind]. cbv zeta.
  destruct (number_ok (map (fun h => hsv_to_rgb h 1 1) (linspace (1 / 10) 1 N)) (fun i => hsv_to_rgb (1 / 10 + 9 / 10 * frac N i) 1 1)) as (t & E & T).
  - rewrite map_length, lin_len. lia.
  - apply (map_len_ok N (linspace (1 / 10) 1 N) (fun h => hsv_to_rgb h 1 1) (fun i => 1 / 10 + 9 / 10 * frac N i)); [apply lin_len|]. intros i Li. exact (joughin_hue N i L Li).
  - exists t. split; [exact E|]. rewrite map_length, lin_len in T. revert T. apply even_ext. intros i Li. apply hsv_ok. pose proof (frac_range N i L Li). unfold frac. lra.
Qed.
(** Rignot: the hues from 0 to 1, less saturated below 9/10 *)
Theorem C130_rignot N name : (2 <= N)%nat -> alike name "Rignot" -> exists t, custom_colormap N name = Ok t /\ even_table N (fun i => hsv_colour (frac N i) (Rmin 1 (1 / 10 + frac N i)) 1) t.
Proof.
  intros L A. unfold custom_colormap, colours_of. pose proof A as A'. apply (name_eqb name "Rignot" eq_refl), String.eqb_eq in A'. rewrite A'. cbn [String.eqb Ascii.eqb Bool.eqb bind]. cbv zeta.
  destruct (number_ok (map (fun h => hsv_to_rgb h (clip01 (1 / 10 + h)) 1) (linspace 0 1 N)) (fun i => hsv_to_rgb (frac N i) (clip01 (1 / 10 + frac N i)) 1)) as (t & E & T).
  - rewrite map_length, lin_len. lia.
  - apply (map_len_ok N (linspace 0 1 N) (fun h => hsv_to_rgb h (clip01 (1 / 10 + h)) 1) (frac N)); [apply lin_len|]. intros i Li. exact (unit_hue N i L Li).
  - exists t. split; [exact E|]. rewrite map_length, lin_len in T. revert T. apply even_ext. intros i Li. pose proof (frac_range N i L Li) as F. fold (frac N i) in F. rewrite (clip_ok _ F). apply hsv_ok. exact F.
Qed.
(** Seroussi: the hues downwards from 1 - 1/(N-1), as many as floor (0.7 N) - 1, less saturated below 9/10 *)
Lemma skipn1_rev (l : list rgb) i c : nth_error (skipn 1 (rev l)) i = Some c <-> (S i < List.length l)%nat /\ nth_error l (List.length l - 2 - i) = Some c.
Proof.
  destruct l as [|x l] using rev_ind; [cbn; split; [destruct i; discriminate|intros [X _]; cbn in X; lia]|]. rewrite rev_app_distr. cbn [rev app skipn]. rewrite app_length. cbn [List.length]. clear IHl.
  split.
  - intros H. assert (Li : (i < List.length l)%nat) by (rewrite <- rev_length; apply nth_error_Some; rewrite H; discriminate). split; [lia|].
    rewrite nth_error_app1 by lia. rewrite (nth_error_nth' _ ((0, 0, 0) : rgb)) in H by (rewrite rev_length; lia). rewrite rev_nth in H by lia. rewrite (nth_error_nth' _ ((0, 0, 0) : rgb)) by lia. rewrite <- H. do 2 f_equal. lia.
  - intros [Li H]. rewrite nth_error_app1 in H by lia. rewrite (nth_error_nth' _ ((0, 0, 0) : rgb)) by (rewrite rev_length; lia). rewrite rev_nth by lia. rewrite (nth_error_nth' _ ((0, 0, 0) : rgb)) in H by lia. rewrite <- H. do 2 f_equal. lia.
Qed.
Lemma nth_error_firstn {A} (l : list A) n i : (i < n)%nat -> nth_error (firstn n l) i = nth_error l i.
Proof. revert l i. induction n as [|n IH]; intros l i Li; [lia|]. destruct l as [|x l], i as [|i]; try reflexivity. cbn [firstn nth_error]. apply IH. lia. Qed.
Lemma size_ok N n : seroussi_size N n -> (Z.to_nat (Int_part (7 / 10 * INR N)) - 1)%nat = n /\ (n + 1 <= N)%nat.
Proof.
  intros H. unfold seroussi_size in H. assert (E : Int_part (7 / 10 * INR N) = (Z.of_nat n + 1)%Z) by (apply ip; rewrite plus_IZR, <- INR_IZR_INZ; lra). rewrite E. split; [lia|].
  apply INR_le. rewrite plus_INR. change (INR 1) with 1. pose proof (pos_INR N). lra.
Qed.
Definition seroussi_list (N : nat) : list rgb :=
  map (fun c => let '(h, _, v) := rgb_to_hsv c in hsv_to_rgb h (clip01 (1 / 10 + h)) v) (firstn (Z.to_nat (Int_part (7 / 10 * INR N)) - 1) (skipn 1 (rev (map (fun h => hsv_to_rgb h 1 1) (linspace 0 1 N))))).
Lemma seroussi_len N n : seroussi_size N n -> List.length (seroussi_list N) = n.
Proof.
  intros H. destruct (size_ok N n H) as [E Ln]. unfold seroussi_list. rewrite E, map_length, firstn_length, skipn_length, rev_length, map_length, lin_len. lia.
Qed.
Lemma seroussi_nth N n i : seroussi_size N n -> (i < n)%nat -> nth_error (seroussi_list N) i = Some (hsv_colour (1 - frac N (i + 1)) (Rmin 1 (1 / 10 + (1 - frac N (i + 1)))) 1).
Proof.
  intros H Li. destruct (size_ok N n H) as [E Ln]. unfold seroussi_list. rewrite E. set (h := 1 - frac N (i + 1)).
  assert (P : 0 < INR (N - 1)) by (apply lt_0_INR; lia).
  assert (Q : frac N (N - 2 - i) = h).
  { unfold h, frac. apply Rmult_eq_reg_r with (INR (N - 1)); [|lra]. replace (INR (N - 2 - i)) with (INR (N - 1) - INR (i + 1)) by (rewrite <- minus_INR by lia; f_equal; lia). field. lra. }
  assert (Hh : 0 <= h < 1).
  { split; [rewrite <- Q; apply (frac_range N); lia|]. unfold h. assert (0 < frac N (i + 1)); [|lra]. unfold frac. apply Rmult_lt_0_compat; [apply lt_0_INR; lia|apply Rinv_0_lt_compat; lra]. }
  assert (C : nth_error (firstn n (skipn 1 (rev (map (fun h => hsv_to_rgb h 1 1) (linspace 0 1 N))))) i = Some (hsv_to_rgb h 1 1)).
  { rewrite nth_error_firstn by exact Li. apply skipn1_rev. rewrite map_length, lin_len. split; [lia|]. rewrite <- Q. apply (map_nth_error (fun h => hsv_to_rgb h 1 1)). apply unit_hue; lia. }
  rewrite (map_nth_error _ _ _ C). rewrite (hue_back h Hh). cbn iota. rewrite clip_ok by lra. f_equal. apply hsv_ok. lra.
Qed.
Theorem C130_seroussi N n name : seroussi_size N n -> n <> 1%nat -> alike name "Seroussi" ->
  exists t, custom_colormap N name = Ok t /\ even_table n (fun i => hsv_colour (1 - frac N (i + 1)) (Rmin 1 (1 / 10 + (1 - frac N (i + 1)))) 1) t.
Proof.
  intros H N1 A. unfold custom_colormap, colours_of. pose proof A as A'. apply (name_eqb name "Seroussi" eq_refl), String.eqb_eq in A'. rewrite A'. cbn [String.eqb Ascii.eqb Bool.eqb bind]. cbv zeta. fold (seroussi_list N).
  cbn [bind]. pose proof (seroussi_len N n H) as LS.
  destruct (number_ok (seroussi_list N) (fun i => hsv_colour (1 - frac N (i + 1)) (Rmin 1 (1 / 10 + (1 - frac N (i + 1)))) 1)) as (t & E & T).
  - rewrite LS. exact N1.
  - intros i Li. rewrite LS in Li. exact (seroussi_nth N n i H Li).
  - exists t. split; [exact E|]. rewrite LS in T. exact T.
Qed.
(** other names raise ValueError; one colour (also Seroussi with three or four) ZeroDivisionError *)
Theorem C130_errors N name :
  (~ alike name "Joughin" -> ~ alike name "Seroussi" -> ~ alike name "Rignot" -> custom_colormap N name = Err ValueError)
  /\ (alike name "Joughin" \/ alike name "Rignot" -> N = 1%nat -> custom_colormap N name = Err ZeroDivision)
  /\ (alike name "Seroussi" -> N = 3%nat \/ N = 4%nat -> custom_colormap N name = Err ZeroDivision).
Proof.
  split; [|split].
  - intros A B C. unfold custom_colormap, colours_of. cbv zeta.
    assert (Q : forall t, capitalize t = t -> ~ alike name t -> String.eqb (capitalize name) t = false) by (intros t Ht Hn; apply not_true_iff_false; intros E; apply Hn, (name_eqb name t Ht), E).
    rewrite (Q "Joughin"%string), (Q "Seroussi"%string), (Q "Rignot"%string); auto.
  - intros [A|A] ->; unfold custom_colormap, colours_of; [apply (name_eqb name "Joughin" eq_refl), String.eqb_eq in A|apply (name_eqb name "Rignot" eq_refl), String.eqb_eq in A]; rewrite A; cbn [String.eqb Ascii.eqb Bool.eqb bind linspace Nat.eqb map List.length seq combine mapM];
    (destruct (Req_EM_T (INR 1 - 1) 0) as [_|X]; [reflexivity|]); destruct X; change (INR 1) with 1; ring.
  - intros A HN. unfold custom_colormap, colours_of. apply (name_eqb name "Seroussi" eq_refl), String.eqb_eq in A. rewrite A. cbn [String.eqb Ascii.eqb Bool.eqb]. cbv zeta. fold (seroussi_list N). cbn [bind].
    assert (S1 : seroussi_size N 1) by (unfold seroussi_size; change (INR 1) with 1; destruct HN as [-> | ->]; cbn [INR]; lra).
    pose proof (seroussi_len N 1 S1) as LS. destruct (seroussi_list N) as [|c [|d l]]; try discriminate LS. cbn [List.length seq combine mapM].
    destruct (Req_EM_T (INR 1 - 1) 0) as [_|X]; [reflexivity|]. destruct X. change (INR 1) with 1. ring.
Qed.
Example C130_nonvacuous : alike "rIGNOT" "Rignot" /\ ~ alike "viridis" "Joughin" /\ seroussi_size 10 6 /\ seroussi_size 2 0
  /\ (exists t, custom_colormap 2 "joughin" = Ok t /\ nth_error t 0 = Some (0, (1, 6 / 10, 0)) /\ nth_error t 1 = Some (1, (1, 0, 0))).
Proof.
  split; [reflexivity|]. split; [discriminate|]. split; [unfold seroussi_size; cbn [INR]; lra|]. split; [unfold seroussi_size; cbn [INR]; lra|].
  destruct (C130_joughin 2 "joughin") as (t & E & L & H); [lia|reflexivity|]. exists t. split; [exact E|]. rewrite (H 0%nat), (H 1%nat) by lia. unfold frac. cbn [INR Nat.sub].
  replace (1 / 10 + 9 / 10 * (0 / 1)) with (1 / 10) by lra. replace (1 / 10 + 9 / 10 * (1 / 1)) with 1 by lra.
  unfold hsv_colour, hsv_channel. cbv zeta.
  rewrite (around_at (5 + 6 * (1 / 10)) 0), (around_at (3 + 6 * (1 / 10)) 0), (around_at (1 + 6 * (1 / 10)) 0), (around_at (5 + 6 * 1) 1), (around_at (3 + 6 * 1) 1), (around_at (1 + 6 * 1) 1) by lra.
  split; f_equal; (apply f_equal2; [lra|]); (apply f_equal2; [apply f_equal2|]); mm.
Qed.
