(** C144: uploads to figshare. *)
From Coq Require Import List Bool String Ascii.
From Verif Require Import Base UploadModel.
Import ListNotations.
Close Scope Z_scope.
Open Scope string_scope.

(** Specification: the folder of an upload and the path of a file in it.  A relative folder, without a slash at its end; a name without slash. *)
Definition plain (s : string) : Prop := s <> "" /\ (forall r, s <> String "/" r) /\ (forall a, s <> a ++ "/").
Definition target (d n : string) : string := "data/" ++ d ++ "/" ++ n.
(** the folders of the server once the folder has been asked for *)
Definition after_mkd {C} (lets : list string -> string -> bool) (d : string) (s : server C) : list string :=
  if lets (folders s) ("data/" ++ d) then ("data/" ++ d) :: folders s else folders s.

Lemma app_assoc' : forall x y z, (x ++ y) ++ z = x ++ (y ++ z).
Proof. induction x; intros; cbn; congruence. Qed.
Lemma ends_iff : forall s, ends_with_slash s = true -> exists a, s = a ++ "/".
Proof.
  induction s as [|c s IH]; cbn; intros H; [discriminate|]. destruct s as [|d s].
  - apply Ascii.eqb_eq in H. subst. exists "". reflexivity.
  - destruct (IH H) as [a E]. exists (String c a). cbn. congruence.
Qed.
Lemma ends_app : forall a s, s <> "" -> ends_with_slash (a ++ s) = ends_with_slash s.
Proof.
  induction a as [|c a IH]; intros s H; [reflexivity|]. cbn [append ends_with_slash]. rewrite IH by exact H.
  destruct (a ++ s) eqn:E; [|reflexivity]. destruct a; [cbn in E; contradiction|discriminate].
Qed.
Lemma join_plain : forall a b, plain b -> a <> "" -> ends_with_slash a = false -> join2 a b = a ++ "/" ++ b.
Proof.
  intros a b (N & S & _) A E. unfold join2. destruct b as [|c b]; [contradiction|].
  destruct (Ascii.eqb_spec c "/") as [->|_]; [exfalso; exact (S b eq_refl)|]. apply String.eqb_neq in A. rewrite A, E. reflexivity.
Qed.
Lemma join_dir_plain : forall d, plain d -> join_dir "data" (Some d) = Ok ("data/" ++ d).
Proof. intros d H. unfold join_dir. rewrite join_plain by (exact H || discriminate || reflexivity). reflexivity. Qed.
Lemma join_target : forall d n, plain d -> plain n -> join2 ("data/" ++ d) n = target d n.
Proof.
  intros d n Hd Hn. rewrite join_plain; [unfold target; rewrite !app_assoc'; reflexivity|exact Hn|discriminate|].
  rewrite ends_app by apply Hd. destruct (ends_with_slash d) eqn:E; [|reflexivity]. apply ends_iff in E. destruct E as [a E]. destruct Hd as (_ & _ & H). exfalso. exact (H a E).
Qed.
Lemma cancel : forall x r t, x ++ r = x ++ t -> r = t.
Proof. induction x as [|c x IH]; intros r t H; [exact H|]. apply IH. cbn in H. congruence. Qed.
Lemma target_inj : forall d m n, target d m = target d n -> m = n.
Proof. intros d m n H. unfold target in H. apply cancel in H. apply cancel in H. exact (cancel "/" m n H). Qed.
(** one run over files that are there, with a server that stores them *)
Lemma upload_ok : forall C stores d (files : list (local_file C)) s, plain d -> Forall (fun f => plain (lname f)) files ->
  (forall f, In f files -> content f <> None /\ stores (folders s) (target d (lname f)) = true) ->
  exists s', upload stores (Some d) files s = (s', None) /\ folders s' = folders s /\
    (forall l f r, files = (l ++ f :: r)%list -> (forall g, In g r -> lname g <> lname f) -> stored s' (target d (lname f)) = content f) /\
    (forall p, (forall f, In f files -> p <> target d (lname f)) -> stored s' p = stored s p).
Proof.
  intros C stores d files. induction files as [|f files IH]; intros s Hd Hn H.
  - exists s. split; [reflexivity|]. split; [reflexivity|]. split; [intros [|? ?] ? ? E; discriminate|auto].
  - inversion Hn as [|? ? Hf Hr]; subst. cbn [upload]. rewrite join_dir_plain, join_target by assumption.
    destruct (H f (or_introl eq_refl)) as [Hc Hs]. destruct (content f) as [c|] eqn:Ef; [|contradiction]. rewrite Hs.
    destruct (IH (put s (target d (lname f)) c) Hd Hr) as (s' & E & F & A & B); [intros g I; exact (H g (or_intror I))|].
    exists s'. split; [exact E|]. split; [exact F|]. split.
    + intros [|x l] g r K N; cbn [app] in K; injection K; intros; subst.
      * rewrite B; [unfold put; cbn [stored]; rewrite String.eqb_refl; auto|]. intros y I J. apply (N y I). symmetry. exact (target_inj _ _ _ J).
      * eapply A; [reflexivity|exact N].
    + intros p K. rewrite B by (intros g I; apply K; right; exact I). unfold put. cbn [stored]. destruct (p =? target d (lname f)) eqn:X; [|reflexivity].
      apply String.eqb_eq in X. exfalso. exact (K f (or_introl eq_refl) X).
Qed.
Lemma make_folder_plain : forall C lets d (s : server C), plain d -> folders (make_folder lets (Some d) s) = after_mkd lets d s /\ stored (make_folder lets (Some d) s) = stored s.
Proof. intros C lets d s H. unfold make_folder, after_mkd. rewrite join_dir_plain by exact H. destruct (lets _ _); auto. Qed.

(** Every file is on the server below data and the folder, with its content (of files with the same name, the last one); nothing else changes; it does not matter whether the folder was there. *)
Theorem C144_upload : forall C lets stores d (files : list (local_file C)) s, plain d -> Forall (fun f => plain (lname f)) files ->
  (forall f, In f files -> content f <> None /\ stores (after_mkd lets d s) (target d (lname f)) = true) ->
  exists s', to_figshare None lets stores files (Some d) s = (s', None) /\ folders s' = after_mkd lets d s /\
    (forall l f r, files = (l ++ f :: r)%list -> (forall g, In g r -> lname g <> lname f) -> stored s' (target d (lname f)) = content f) /\
    (forall p, (forall f, In f files -> p <> target d (lname f)) -> stored s' p = stored s p).
Proof.
  intros C lets stores d files s Hd Hn H. destruct (make_folder_plain C lets d s Hd) as [F1 F2]. unfold to_figshare.
  destruct (upload_ok C stores d files (make_folder lets (Some d) s) Hd Hn) as (s' & E & F & A & B); [rewrite F1; exact H|].
  exists s'. rewrite F1 in F. rewrite F2 in B. auto.
Qed.
(** The upload of a file alone can fail: the files before it are on the server, those after it are not tried. *)
Theorem C144_failure : forall C lets stores d (l : list (local_file C)) f r s e, plain d -> Forall (fun f => plain (lname f)) (l ++ f :: r) ->
  (forall g, In g l -> content g <> None /\ stores (after_mkd lets d s) (target d (lname g)) = true) ->
  (content f = None /\ e = FileNotFound \/ content f <> None /\ stores (after_mkd lets d s) (target d (lname f)) = false /\ e = OtherExn) ->
  to_figshare None lets stores (l ++ f :: r) (Some d) s = (fst (to_figshare None lets stores l (Some d) s), Some e).
Proof.
  intros C lets stores d l f r s e Hd Hn Hl Hf. destruct (make_folder_plain C lets d s Hd) as [F1 _]. unfold to_figshare. rewrite <- F1 in Hl, Hf.
  revert Hl Hf. generalize (make_folder lets (Some d) s). clear F1 s. induction l as [|g l IH]; intros s Hl Hf; cbn [app upload] in *; inversion Hn as [|? ? H1 H2]; subst; rewrite join_dir_plain, join_target by assumption.
  - cbn [fst]. destruct Hf as [[-> ->]|(N & -> & ->)]; [reflexivity|]. destruct (content f); [reflexivity|contradiction].
  - destruct (Hl g (or_introl eq_refl)) as [Hc Hs]. destruct (content g) as [c|]; [|contradiction]. rewrite Hs.
    apply IH; [exact H2|intros x I; exact (Hl x (or_intror I))|exact Hf].
Qed.
(** Without a folder, the default, no file is ever uploaded: TypeError. *)
Theorem C144_default_refuted : forall C lets stores (f : local_file C) files s, to_figshare None lets stores (f :: files) None s = (s, Some TypeError).
Proof. reflexivity. Qed.
(** A folder that begins with a slash is not below data. *)
Theorem C144_absolute_refuted : forall C lets stores d n (c : C) s, plain n -> d <> "" -> ends_with_slash d = false -> stores (folders (make_folder lets (Some (String "/" d)) s)) (String "/" d ++ "/" ++ n) = true ->
  exists s', to_figshare None lets stores [mklocal n (Some c)] (Some (String "/" d)) s = (s', None) /\ stored s' (String "/" d ++ "/" ++ n) = Some c.
Proof.
  intros C lets stores d n c s Hn N E H. unfold to_figshare. cbn [upload]. unfold join_dir at 1. change (join2 "data" (String "/" d)) with (String "/" d). cbn [lname content].
  rewrite join_plain; [|exact Hn|discriminate|destruct d; [contradiction|exact E]]. rewrite H. eexists. split; [reflexivity|]. cbn [stored put]. rewrite String.eqb_refl. reflexivity.
Qed.
Theorem C144_connection : forall C e lets stores (files : list (local_file C)) d s, to_figshare (Some e) lets stores files d s = (s, Some e).
Proof. reflexivity. Qed.

(** Instances. *)
Definition lets1 (l : list string) (p : string) : bool := negb (existsb (String.eqb p) l).
Definition stores1 (l : list string) (p : string) : bool := existsb (fun d => prefix (d ++ "/") p) l.
Definition server1 : server nat := mkserver ["data"] (fun p => if p =? "data/old.txt" then Some 7 else None).
Lemma plain_check : forall s, s <> "" -> (match s with String c _ => c <> "/"%char | "" => True end) -> ends_with_slash s = false -> plain s.
Proof.
  intros s N S E. split; [exact N|]. split; [intros r ->; contradiction|]. intros a ->. rewrite ends_app in E by discriminate. discriminate.
Qed.
Example upload_instance : plain "maps" /\ plain "a.nc" /\ (forall f, In f [mklocal "a.nc" (Some 1); mklocal "b.nc" (Some 2)] -> content f <> None /\ stores1 (after_mkd lets1 "maps" server1) (target "maps" (lname f)) = true) /\
  stored (fst (to_figshare None lets1 stores1 [mklocal "a.nc" (Some 1); mklocal "b.nc" (Some 2); mklocal "a.nc" (Some 3)] (Some "maps") server1)) "data/maps/a.nc" = Some 3.
Proof.
  split; [apply plain_check; (discriminate || reflexivity)|]. split; [apply plain_check; (discriminate || reflexivity)|].
  split; [intros f [<-|[<-|[]]]; split; (discriminate || reflexivity)|reflexivity].
Qed.
Example failure_instance : snd (to_figshare None lets1 stores1 [mklocal "a.nc" (Some 1); mklocal "b.nc" None] (Some "maps") server1) = Some FileNotFound /\
  stored (fst (to_figshare None lets1 stores1 [mklocal "a.nc" (Some 1); mklocal "b.nc" None] (Some "maps") server1)) "data/maps/a.nc" = Some 1.
Proof. split; reflexivity. Qed.
