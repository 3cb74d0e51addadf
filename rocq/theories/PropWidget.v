(** C139: choices of the notebook widgets (model: WidgetModel.v). *)
From Coq Require Import List Bool String Ascii Lia.
From Verif Require Import Base WidgetModel.
Import ListNotations.
Close Scope Z_scope.
Open Scope nat_scope.
Open Scope string_scope.

(** ** Specification *)
Definition center (c : string) : Prop := In c ["CSR"; "GFZ"; "JPL"; "CNES"].
(** the releases and the products that exist *)
Inductive release_of : string -> string -> Prop :=
| rel_cnes r : In r ["RL01"; "RL02"; "RL03"; "RL04"; "RL05"] -> release_of "CNES" r
| rel_other c r : In c ["CSR"; "GFZ"; "JPL"] -> In r ["RL04"; "RL05"; "RL06"] -> release_of c r.
Inductive product_of : string -> string -> string -> Prop :=
| prod_csr r p : In p ["GAC"; "GAD"; "GSM"] -> product_of "CSR" r p
| prod_gfz c r p : In c ["GFZ"; "JPL"] -> In p ["GAA"; "GAB"; "GAC"; "GAD"; "GSM"] -> product_of c r p
| prod_cnes1 p : In p ["GAC"; "GSM"] -> product_of "CNES" "RL01" p
| prod_cnes2 r p : In r ["RL02"; "RL03"; "RL05"] -> In p ["GAA"; "GAB"; "GSM"] -> product_of "CNES" r p
| prod_cnes4 : product_of "CNES" "RL04" "GSM".
Definition no_comma (s : string) : Prop := ~ exists a b, s = a ++ "," ++ b.

Ltac each H := repeat (destruct H as [<-|H]); [..|destruct H].
(** the latest release of the center is chosen, out of the releases that exist *)
Theorem C139_release : forall c, center c -> exists d, set_release c = Ok d /\ (forall r, In r (options d) <-> release_of c r) /\ release_of c (value d) /\ value d = (if String.eqb c "CNES" then "RL05" else "RL06").
Proof.
  assert (R1 : forall r, In r ["RL01"; "RL02"; "RL03"; "RL04"; "RL05"] <-> release_of "CNES" r).
  { intros r. split; [apply rel_cnes|]. intros H. inversion H as [r' H'|c' r' H1 H2]; subst; [exact H'|]. cbn in H1. repeat (destruct H1 as [H1|H1]; [discriminate H1|]). destruct H1. }
  assert (R2 : forall c r, In c ["CSR"; "GFZ"; "JPL"] -> In r ["RL04"; "RL05"; "RL06"] <-> release_of c r).
  { intros c r Hc. split; [apply rel_other; exact Hc|]. intros H. inversion H as [r' H'|c' r' H1 H2]; subst; [|exact H2]. cbn in Hc. repeat (destruct Hc as [Hc|Hc]; [discriminate Hc|]). destruct Hc. }
  intros c H. unfold center in H. cbn in H. destruct H as [<-|[<-|[<-|[<-|[]]]]]; eexists; (split; [reflexivity|]); cbn [options value];
    (split; [intros r; first [apply R1|apply R2; cbn; auto]|]); (split; [first [apply R1; cbn; tauto|apply R2; cbn; tauto]|reflexivity]).
Qed.
Print Assumptions C139_release.
(** the products offered are those that exist; the default has to be one of them *)
Theorem C139_product : forall default c r, release_of c r ->
  (product_of c r default -> exists d, set_product default c r = Ok d /\ (forall p, In p (options d) <-> product_of c r p) /\ value d = default) /\
  (~ product_of c r default -> exists e, set_product default c r = Err e).
Proof.
  assert (A : forall os v, (In v os -> assign os v = Ok (mkd os v)) /\ (~ In v os -> assign os v = Err OtherExn)).
  { intros os v. unfold assign. destruct (existsb (String.eqb v) os) eqn:E; split; intros H; try reflexivity; exfalso.
    - apply existsb_exists in E. destruct E as (x & Hx & Ex). apply String.eqb_eq in Ex. subst. contradiction.
    - assert (K : existsb (String.eqb v) os = true) by (apply existsb_exists; exists v; split; [exact H|apply String.eqb_refl]). congruence. }
  assert (G : forall default c r os, products_of c r = Ok os -> (forall p, In p os <-> product_of c r p) ->
    (product_of c r default -> exists d, set_product default c r = Ok d /\ (forall p, In p (options d) <-> product_of c r p) /\ value d = default) /\ (~ product_of c r default -> exists e, set_product default c r = Err e)).
  { intros default c r os P S1. unfold set_product. rewrite P. cbn [bind]. split; intros H; rewrite <- S1 in H; destruct (A os default) as [A1 A2].
    - exists (mkd os default). split; [exact (A1 H)|]. split; [exact S1|reflexivity].
    - exists OtherExn. exact (A2 H). }
  intros default c r H. destruct H as [r H|c r Hc H].
  - cbn in H. destruct H as [<-|[<-|[<-|[<-|[<-|[]]]]]]; (eapply G; [reflexivity|]); intros p; (split; [intros K|intros K; inversion K; subst; cbn in *; intuition discriminate]);
      first [apply prod_cnes1; exact K | apply prod_cnes2; [cbn; tauto|exact K] | cbn in K; destruct K as [<-|[]]; apply prod_cnes4].
  - cbn in Hc. destruct Hc as [<-|[<-|[<-|[]]]]; (eapply G; [reflexivity|]); intros p; (split; [intros K|intros K; inversion K; subst; cbn in *; intuition discriminate]); first [apply prod_csr; exact K | apply prod_gfz; [cbn; tauto|exact K]].
Qed.
Print Assumptions C139_product.
(** the monthly fields can always be chosen, and no other product can be the default for all releases *)
Theorem C139_default : forall default, (forall c r, release_of c r -> exists d, set_product default c r = Ok d) <-> default = "GSM".
Proof.
  intros default. split.
  - intros H. destruct (H "CNES" "RL04" ltac:(apply rel_cnes; cbn; tauto)) as (d & E). cbn in E. unfold assign in E. cbn [existsb] in E. destruct (String.eqb_spec default "GSM") as [->|N]; [reflexivity|discriminate E].
  - intros -> c r H. destruct (C139_product "GSM" c r H) as [K _]. destruct K as (d & E & _); [|exists d; exact E].
    destruct H as [r H|c r Hc H]; cbn in *; [destruct H as [<-|[<-|[<-|[<-|[<-|[]]]]]]|destruct Hc as [<-|[<-|[<-|[]]]]]; first [apply prod_cnes1; cbn; tauto|apply prod_cnes2; cbn; tauto|apply prod_cnes4|apply prod_csr; cbn; tauto|apply prod_gfz; cbn; tauto].
Qed.
Print Assumptions C139_default.
(** a release of another center: the products of CNES have no entry for release 6 *)
Theorem C139_stale_release_refuted : forall default, set_product default "CNES" "RL06" = Err KeyError.
Proof. reflexivity. Qed.
Print Assumptions C139_stale_release_refuted.
(** the maximum degree of a product is never set: whatever is chosen, the callback raises UnboundLocalError *)
Theorem C139_max_degree_refuted : forall c r, set_max_degree c r = Err UnboundLocalError.
Proof. reflexivity. Qed.
Print Assumptions C139_max_degree_refuted.
(** corrections that are on by default *)
Theorem C139_corrections : forall r p, let c := default_corrections r p in
  (pole c = true <-> r = "RL05" /\ p = "GSM") /\ (atmosphere c = true <-> r = "RL05") /\
  (p = "GSM" -> geocenter c = "UCI" /\ C20 c = "GSFC" /\ C30 c = "GSFC") /\ (p <> "GSM" -> geocenter c = "[none]" /\ C20 c = "[none]" /\ C30 c = "[none]").
Proof.
  intros r p. cbv zeta. unfold default_corrections, replaced, pole_tide, atm. cbn [pole atmosphere geocenter C20 C30]. rewrite andb_true_iff, !String.eqb_eq. split; [tauto|]. split; [tauto|].
  split; intros H; [rewrite (proj2 (String.eqb_eq p "GSM") H); auto|]. apply String.eqb_neq in H. rewrite H. auto.
Qed.
Print Assumptions C139_corrections.
(** the order follows the degree *)
Theorem C139_max_order : forall l, number (set_max_order l) = number l /\ top (set_max_order l) = number l.
Proof. split; reflexivity. Qed.
Print Assumptions C139_max_order.
(** the index of the units is the position, counted from 1 *)
Theorem C139_unit_index : forall units v k, NoDup units -> (unit_index units v = Ok k <-> exists j, k = S j /\ nth_error units j = Some v).
Proof.
  intros units v k ND. unfold unit_index.
  assert (G : forall l a, NoDup l -> (fix go (k : nat) l := match l with [] => Err OtherExn | u :: r => if String.eqb u v then Ok k else go (S k) r end) a l = Ok k <-> exists j, k = a + j /\ nth_error l j = Some v).
  { induction l as [|u l IH]; intros a N; [split; [discriminate|intros (j & _ & H); destruct j; discriminate H]|]. inversion N as [|? ? NI N']; subst. destruct (String.eqb_spec u v) as [->|NE].
    - split; [intros E; injection E as <-; exists 0; split; [lia|reflexivity]|]. intros ([|j] & -> & H); [f_equal; lia|]. cbn in H. apply nth_error_In in H. contradiction.
    - rewrite (IH (S a) N'). split; intros (j & -> & H); [exists (S j); split; [lia|exact H]|]. destruct j as [|j]; [cbn in H; injection H as H; contradiction|]. exists j. split; [lia|exact H]. }
  rewrite (G units 1 ND). split; intros (j & -> & H); exists j; auto.
Qed.
Print Assumptions C139_unit_index.

(** ** The list of files *)
Lemma app_cons (a : string) c r : (a ++ String c "") ++ r = a ++ String c r.
Proof. induction a as [|x a IH]; [reflexivity|]. cbn. rewrite IH. reflexivity. Qed.
Lemma split_plain : forall s cur, no_comma s -> split_comma cur s = [cur ++ s].
Proof.
  induction s as [|c s IH]; intros cur H; [cbn; f_equal; induction cur as [|x cur IHc]; [reflexivity|cbn; f_equal; exact IHc]|]. cbn [split_comma]. destruct (Ascii.eqb_spec c ",") as [->|N].
  - destruct H. exists "", s. reflexivity.
  - rewrite IH, app_cons; [reflexivity|]. intros (a & b & E). apply H. exists (String c a), b. rewrite E. reflexivity.
Qed.
Lemma split_cut : forall s cur r, no_comma s -> split_comma cur (s ++ "," ++ r) = (cur ++ s) :: split_comma "" r.
Proof.
  induction s as [|c s IH]; intros cur r H.
  - cbn. f_equal. induction cur as [|x cur IHc]; [reflexivity|cbn; f_equal; exact IHc].
  - cbn [append split_comma]. destruct (Ascii.eqb_spec c ",") as [->|N].
    + destruct H. exists "", s. reflexivity.
    + change (String "," r) with ("," ++ r); rewrite IH, app_cons; [reflexivity|]. intros (a & b & E). apply H. exists (String c a), b. rewrite E. reflexivity.
Qed.
Lemma split_join : forall l, l <> [] -> Forall no_comma l -> split_comma "" (join_comma l) = l.
Proof.
  induction l as [|a l IH]; intros N F; [contradiction|]. inversion F as [|? ? F1 F2]; subst. destruct l as [|b l]; [apply split_plain; exact F1|].
  change (join_comma (a :: b :: l)) with (a ++ "," ++ join_comma (b :: l)). rewrite (split_cut a "" (join_comma (b :: l)) F1). cbn [append].
  f_equal. apply IH; [discriminate|exact F2].
Qed.
Lemma join_empty : forall l, join_comma l = "" <-> l = [] \/ l = [""].
Proof.
  intros [|a [|b l]]; [split; [auto|reflexivity]|split; [intros H; right; cbn in H; rewrite H; reflexivity|intros [H|H]; [discriminate H|injection H as ->; reflexivity]]|].
  split; [intros H; destruct a; discriminate H|intros [H|H]; discriminate H].
Qed.
(** names without commas survive: the list read from the label is the list that was written to it, except for the list of one empty name *)
Theorem C139_files : forall files, Forall no_comma files -> (set_removefile (set_removelabel files) = files <-> files <> [""]).
Proof.
  intros files F. unfold set_removefile, set_removelabel. destruct (join_comma files) as [|c s] eqn:E.
  - apply join_empty in E. destruct E as [->| ->]; split; intros H; try reflexivity; try discriminate; try congruence. 
  - rewrite <- E. assert (N : files <> []) by (intros ->; discriminate E). rewrite (split_join files N F). split; [|reflexivity]. intros _ ->. discriminate E.
Qed.
Print Assumptions C139_files.
(** any number of choices of files without commas: the list has all of them, in order, and the label says so *)
Theorem C139_choices : forall chosen, Forall (fun l => l <> [] /\ Forall (fun s => no_comma s /\ s <> "") l) chosen ->
  fold_left (fun st l => choose (fst st) l (snd st)) chosen ([], "") = (List.concat chosen, join_comma (List.concat chosen)).
Proof.
  intros chosen. induction chosen as [|l chosen IH] using rev_ind; intros F; [reflexivity|]. apply Forall_app in F. destruct F as [F1 F2]. inversion F2 as [|? ? [Ne F3] _]; subst.
  rewrite fold_left_app, (IH F1). cbn [fold_left fst snd]. rewrite List.concat_app. cbn [List.concat]. rewrite app_nil_r. unfold choose.
  assert (FC : Forall no_comma (List.concat chosen ++ l)).
  { apply Forall_app. split; [|eapply Forall_impl; [|exact F3]; intros s [H _]; exact H]. clear -F1. induction F1 as [|k chosen [_ H] _ IH]; [constructor|]. cbn. apply Forall_app. split; [eapply Forall_impl; [|exact H]; intros s [K _]; exact K|exact IH]. }
  assert (NN : (List.concat chosen ++ l)%list <> [""]).
  { intros E. assert (I0 : In "" (List.concat chosen ++ l)%list) by (rewrite E; left; reflexivity). apply in_app_iff in I0. destruct I0 as [I0|I0].
    - apply in_concat in I0. destruct I0 as (k & Hk & Ik). rewrite Forall_forall in F1. destruct (F1 k Hk) as [_ K]. rewrite Forall_forall in K. destruct (K "" Ik) as [_ K2]. contradiction.
    - rewrite Forall_forall in F3. destruct (F3 "" I0) as [_ K2]. contradiction. }
  rewrite (proj2 (C139_files _ FC) NN). destruct (String.eqb _ _); reflexivity.
Qed.
Print Assumptions C139_choices.
(** a comma in a name cuts it in two *)
Theorem C139_comma_refuted : forall a b, no_comma a -> no_comma b -> set_removefile (set_removelabel [a ++ "," ++ b]) = [a; b].
Proof.
  intros a b Ha Hb. unfold set_removefile, set_removelabel, join_comma. cbn [String.concat]. destruct (a ++ "," ++ b) as [|c s] eqn:E; [destruct a; discriminate E|]. rewrite <- E, split_cut by exact Ha. rewrite split_plain by exact Hb. reflexivity.
Qed.
Print Assumptions C139_comma_refuted.

(** ** Examples *)
Example C139_example : center "CNES" /\ release_of "GFZ" "RL06" /\ product_of "CNES" "RL05" "GAA" /\ ~ product_of "CSR" "RL06" "GAA" /\ Forall no_comma ["a.nc"; "b.nc"] /\ set_removefile "a.nc,b.nc" = ["a.nc"; "b.nc"].
Proof.
  split; [cbn; tauto|]. split; [apply rel_other; cbn; tauto|]. split; [apply prod_cnes2; cbn; tauto|]. split; [intros H; inversion H; subst; cbn in *; intuition discriminate|]. split; [|reflexivity].
  assert (K : forall s, Forall (fun c => c <> ","%char) (list_ascii_of_string s) -> no_comma s).
  { intros s H (a & b & E). rewrite E in H. clear E. induction a as [|x a IH]; cbn in H; inversion H as [|? ? H1 H2]; subst; [congruence|exact (IH H2)]. }
  repeat constructor; apply K; cbn; repeat constructor; discriminate.
Qed.
