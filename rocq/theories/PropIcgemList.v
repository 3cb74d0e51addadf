(** C145: the list of the models of ICGEM. *)
From Coq Require Import List Bool Ascii String.
From Verif Require Import Base IcgemListModel.
Import ListNotations.
Close Scope Z_scope.
Open Scope list_scope.

(** Specification: a reference to the file of the model n: any folders, then n and .gfc *)
Definition t (s : string) : text := list_ascii_of_string s.
Definition no_slash (l : text) : Prop := ~ In "/"%char l.
Definition no_gfc (n : text) : Prop := forall a b, n <> a ++ t "gfc" ++ b.
Definition file_of (n ref : text) : Prop := no_slash n /\ no_gfc n /\ exists folder, (folder = [] \/ exists f, folder = f ++ t "/") /\ ref = folder ++ n ++ t ".gfc".
Definition other (ref : text) : Prop := forall a, ref <> a ++ t "gfc".

Lemma teqb_eq : forall a b, teqb a b = true <-> a = b.
Proof.
  induction a as [|c a IH]; intros [|d b]; cbn; split; try congruence; try reflexivity.
  - intros H. apply andb_true_iff in H. destruct H as [H1 H2]. apply Ascii.eqb_eq in H1. apply IH in H2. congruence.
  - intros H. injection H as -> ->. rewrite Ascii.eqb_refl. apply IH. reflexivity.
Qed.
Lemma base_plain : forall l acc, no_slash l -> base_from acc l = rev acc ++ l.
Proof.
  induction l as [|c l IH]; intros acc H; cbn [base_from]; [rewrite app_nil_r; reflexivity|].
  destruct (Ascii.eqb_spec c "/") as [->|N]; [exfalso; apply H; left; reflexivity|]. rewrite IH by (intros I; apply H; right; exact I). cbn. rewrite <- app_assoc. reflexivity.
Qed.
Lemma base_folder : forall f acc l, base_from acc (f ++ "/"%char :: l) = base_from [] l.
Proof. induction f as [|c f IH]; intros acc l; cbn [app base_from]; [reflexivity|]. destruct (Ascii.eqb c "/"); apply IH. Qed.
Lemma basename_file : forall n ref, file_of n ref -> basename ref = n ++ t ".gfc".
Proof.
  intros n ref (S & _ & folder & HF & ->). unfold basename.
  assert (P : base_from [] (n ++ t ".gfc") = n ++ t ".gfc").
  { apply base_plain. intros I. apply in_app_or in I. destruct I as [I|I]; [exact (S I)|]. cbn in I. intuition discriminate. }
  destruct HF as [->|[f ->]]; [exact P|]. rewrite <- app_assoc. cbn [t list_ascii_of_string app]. rewrite base_folder. exact P.
Qed.
Lemma findall_name : forall n cur, no_gfc n -> findall cur (n ++ t ".gfc") = [rev cur ++ n].
Proof.
  induction n as [|c n IH]; intros cur H.
  - destruct cur as [|x cur]; reflexivity || (cbn; rewrite app_nil_r; reflexivity).
  - assert (G : findall cur ((c :: n) ++ t ".gfc") = findall (c :: cur) (n ++ t ".gfc")).
    { cbn [app]. change (findall cur (c :: n ++ t ".gfc")) with
        (match cur, n ++ t ".gfc" with _ :: g, f :: k :: r => if (Ascii.eqb c "g" && Ascii.eqb f "f" && Ascii.eqb k "c")%bool then rev g :: findall [] r else findall (c :: cur) (n ++ t ".gfc") | _, _ => findall (c :: cur) (n ++ t ".gfc") end).
      destruct cur as [|x cur]; [reflexivity|]. destruct n as [|f [|k n]]; cbn [app t list_ascii_of_string].
      - destruct (Ascii.eqb c "g"); reflexivity.
      - destruct (Ascii.eqb c "g"), (Ascii.eqb f "f"); reflexivity.
      - destruct (Ascii.eqb_spec c "g") as [->|]; [|reflexivity]. destruct (Ascii.eqb_spec f "f") as [->|]; [|reflexivity]. destruct (Ascii.eqb_spec k "c") as [->|]; [|reflexivity].
        exfalso. exact (H [] n eq_refl). }
    rewrite G, IH; [cbn; rewrite <- app_assoc; reflexivity|]. intros a b E. apply (H (c :: a) b). cbn. rewrite E. reflexivity.
Qed.
Lemma ends_iff : forall l, ends_gfc l = true <-> exists a, l = a ++ t "gfc".
Proof.
  intros l. unfold ends_gfc. split.
  - intros H. destruct (rev l) as [|c [|f [|g r]]] eqn:E; try discriminate. apply andb_true_iff in H. destruct H as [H H3]. apply andb_true_iff in H. destruct H as [H1 H2].
    apply Ascii.eqb_eq in H1, H2, H3. subst. exists (rev r). rewrite <- (rev_involutive l), E. cbn. rewrite <- !app_assoc. reflexivity.
  - intros [a ->]. rewrite rev_app_distr. reflexivity.
Qed.
Lemma ends_file : forall n ref, file_of n ref -> ends_gfc ref = true.
Proof. intros n ref (_ & _ & folder & _ & ->). apply ends_iff. exists (folder ++ n ++ t "."). rewrite <- !app_assoc. reflexivity. Qed.
Lemma name_file : forall n ref, file_of n ref -> pop (findall [] (basename ref)) = Ok n.
Proof. intros n ref H. rewrite (basename_file _ _ H), findall_name by apply H. reflexivity. Qed.
Lemma name_unique : forall n m ref, file_of n ref -> file_of m ref -> n = m.
Proof. intros n m ref H K. apply name_file in H. apply name_file in K. congruence. Qed.
Lemma get_set : forall d k v q, getitem (setitem d k v) q = if teqb k q then Some v else getitem d q.
Proof.
  unfold getitem. induction d as [|[k' v'] d IH]; intros k v q; cbn [setitem find fst snd].
  - destruct (teqb k q); reflexivity.
  - destruct (teqb k' k) eqn:E; cbn [find fst snd].
    + apply teqb_eq in E. subst. destruct (teqb k q); reflexivity.
    + destruct (teqb k' q) eqn:F; [|apply IH]. destruct (teqb k q) eqn:G; [|reflexivity]. apply teqb_eq in F, G. subst. assert (X : teqb q q = true) by (apply teqb_eq; reflexivity). congruence.
Qed.
Lemma collect_ok : forall refs d, Forall (fun f => other f \/ exists n, file_of n f) refs ->
  exists d', collect refs d = Ok d' /\
    (forall n l f r, refs = l ++ f :: r -> file_of n f -> (forall g, In g r -> ~ file_of n g) -> getitem d' n = Some f) /\
    (forall n, (forall f, In f refs -> ~ file_of n f) -> getitem d' n = getitem d n).
Proof.
  induction refs as [|f refs IH]; intros d H.
  - exists d. split; [reflexivity|]. split; [intros n [|? ?] ? ? E; discriminate|reflexivity].
  - inversion H as [|? ? Hf Hr]; subst. cbn [collect]. destruct Hf as [Hf|[n Hf]].
    + assert (E : ends_gfc f = false) by (destruct (ends_gfc f) eqn:E; [apply ends_iff in E; destruct E as [a E]; exfalso; exact (Hf a E)|reflexivity]). rewrite E.
      assert (N : forall m, ~ file_of m f) by (intros m K; apply ends_file in K; congruence).
      destruct (IH d Hr) as (d' & E' & A & B). exists d'. split; [exact E'|]. split.
      * intros m [|x l] g r K L M; cbn [app] in K; injection K; intros; subst; [exfalso; exact (N m L)|]. eapply A; eauto.
      * intros m K. apply B. intros g I. apply K. right. exact I.
    + rewrite (ends_file _ _ Hf), (name_file _ _ Hf). cbn [bind]. destruct (IH (setitem d n f) Hr) as (d' & E' & A & B). exists d'. split; [exact E'|]. split.
      * intros m [|x l] g r K L M; cbn [app] in K; injection K; intros; subst; [|eapply A; eauto].
        rewrite B by exact M. rewrite get_set. rewrite (name_unique _ _ _ Hf L). assert (X : teqb m m = true) by (apply teqb_eq; reflexivity). rewrite X. reflexivity.
      * intros m K. rewrite B by (intros g I; apply K; right; exact I). rewrite get_set. destruct (teqb n m) eqn:X; [|reflexivity]. apply teqb_eq in X. subst. exfalso. exact (K f (or_introl eq_refl) Hf).
Qed.

(** A page whose references are files of models and others: the list has exactly the models that have a file, each with its file, the last one if there are more. *)
Theorem C145_models : forall refs, Forall (fun f => other f \/ exists n, file_of n f) refs ->
  exists d, icgem_list (Some refs) = Ok d /\
    (forall n l f r, refs = l ++ f :: r -> file_of n f -> (forall g, In g r -> ~ file_of n g) -> getitem d n = Some f) /\
    (forall n, (forall f, In f refs -> ~ file_of n f) -> getitem d n = None).
Proof. intros refs H. destruct (collect_ok refs [] H) as (d & E & A & B). exists d. auto. Qed.
(** A page that cannot be had is an error. *)
Theorem C145_no_page : icgem_list None = Err OtherExn.
Proof. reflexivity. Qed.
(** A name with a second ending is lost: the file n.gfc.gfc is listed with the empty name. *)
Theorem C145_double_refuted : forall n, no_slash n -> no_gfc n -> icgem_list (Some [n ++ t ".gfc.gfc"]) = Ok [([], n ++ t ".gfc.gfc")].
Proof.
  intros n S H. cbn [icgem_list collect].
  assert (E : ends_gfc (n ++ t ".gfc.gfc") = true) by (apply ends_iff; exists (n ++ t ".gfc."); rewrite <- app_assoc; reflexivity). rewrite E.
  assert (B : basename (n ++ t ".gfc.gfc") = n ++ t ".gfc.gfc").
  { unfold basename. rewrite base_plain; [reflexivity|]. intros I. apply in_app_or in I. destruct I as [I|I]; [exact (S I)|]. cbn in I. intuition discriminate. }
  rewrite B.
  assert (F : forall m cur, no_gfc m -> findall cur (m ++ t ".gfc.gfc") = [rev cur ++ m; []]).
  { clear. induction m as [|c m IH]; intros cur H.
    - destruct cur as [|x cur]; reflexivity || (cbn; rewrite app_nil_r; reflexivity).
    - assert (G : findall cur ((c :: m) ++ t ".gfc.gfc") = findall (c :: cur) (m ++ t ".gfc.gfc")).
      { cbn [app]. change (findall cur (c :: m ++ t ".gfc.gfc")) with
          (match cur, m ++ t ".gfc.gfc" with _ :: g, f :: k :: r => if (Ascii.eqb c "g" && Ascii.eqb f "f" && Ascii.eqb k "c")%bool then rev g :: findall [] r else findall (c :: cur) (m ++ t ".gfc.gfc") | _, _ => findall (c :: cur) (m ++ t ".gfc.gfc") end).
        destruct cur as [|x cur]; [reflexivity|]. destruct m as [|f [|k m]]; cbn [app t list_ascii_of_string].
        - destruct (Ascii.eqb c "g"); reflexivity.
        - destruct (Ascii.eqb c "g"), (Ascii.eqb f "f"); reflexivity.
        - destruct (Ascii.eqb_spec c "g") as [->|]; [|reflexivity]. destruct (Ascii.eqb_spec f "f") as [->|]; [|reflexivity]. destruct (Ascii.eqb_spec k "c") as [->|]; [|reflexivity].
          exfalso. exact (H [] m eq_refl). }
      rewrite G, IH; [cbn; rewrite <- app_assoc; reflexivity|]. intros a b E. apply (H (c :: a) b). cbn. rewrite E. reflexivity. }
  rewrite F by exact H. reflexivity.
Qed.
(** A single reference to a file called gfc stops the whole list: IndexError. *)
Theorem C145_bare_refuted : forall l r f, Forall (fun f => other f \/ exists n, file_of n f) l -> icgem_list (Some (l ++ (f ++ t "/gfc") :: r)) = Err IndexError.
Proof.
  intros l r f H. cbn [icgem_list]. generalize (@nil (text * text)). induction H as [|x l Hx _ IH]; intros d; cbn [app collect].
  - assert (E : ends_gfc (f ++ t "/gfc") = true) by (apply ends_iff; exists (f ++ t "/"); rewrite <- app_assoc; reflexivity). rewrite E.
    unfold basename. cbn [t list_ascii_of_string]. rewrite base_folder. reflexivity.
  - destruct (ends_gfc x) eqn:E; [|apply IH]. destruct Hx as [Hx|[n Hx]]; [apply ends_iff in E; destruct E as [a E]; exfalso; exact (Hx a E)|]. rewrite (name_file _ _ Hx). apply IH.
Qed.

(** Instances. *)
Example models_instance : icgem_list (Some [t "/getmodel/gfc/a/GGM05C.gfc"; t "readme.txt"; t "EIGEN.gfc"; t "new/EIGEN.gfc"]) =
  Ok [(t "GGM05C", t "/getmodel/gfc/a/GGM05C.gfc"); (t "EIGEN", t "new/EIGEN.gfc")].
Proof. reflexivity. Qed.
Lemma short_no_gfc : forall n, (List.length n < 3)%nat -> no_gfc n.
Proof. intros n H a b ->. rewrite !app_length in H. cbn in H. Lia.lia. Qed.
Example file_instance : file_of (t "A5") (t "x/A5.gfc") /\ other (t "readme.txt").
Proof.
  split.
  - split; [cbv; intuition discriminate|]. split; [apply short_no_gfc; cbn; auto|]. exists (t "x/"). split; [right; exists (t "x"); reflexivity|reflexivity].
  - intros a E. assert (K : ends_gfc (t "readme.txt") = true) by (apply ends_iff; eauto). discriminate.
Qed.
