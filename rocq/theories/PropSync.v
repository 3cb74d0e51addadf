(** C102: local copies of data archives; C103: listings, monthly archives and compressed copies (model: SyncModel.v). *)
From Coq Require Import Reals Lra Lia String Permutation Sorting.Sorted ZifyBool ZifyNat.
From Verif Require Import Base SyncModel.
From Verif Require UtilModel PropUtil2.
Import UtilModel(even).
Close Scope Z_scope.
Open Scope R_scope.

(** ** Specification *)
(** an even number of seconds lies after time a and not after time b *)
Definition even_between (a b : R) : Prop := exists n, Z.Even n /\ a < IZR n <= b.
(** the pieces of the transfer are the file *)
Definition faithful (x : remote * transfer) : Prop := concat (map snd (t_chunks (snd x))) = r_data (fst x).
(** a local file has to be fetched: it is missing, or everything is to be fetched, or it is out of date, by contents or by modification time *)
Inductive due (hash : bytes -> string) (o : options) (d : bytes) (m : R) : option file -> Prop :=
| due_missing : due hash o d m None
| due_clobber x : o_clobber o = true -> due hash o d m (Some x)
| due_changed x : o_checksum o = true -> hash (content x) <> hash d -> due hash o d m (Some x)
| due_newer x : o_checksum o = false -> even_between (mtime x) m -> due hash o d m (Some x).
Definition paths (place : string -> string) (l : list (remote * transfer)) : list string := map (fun x => place (r_name (fst x))) l.
(** an archive that publishes new versions with later times, and complete runs of the program on listings of the archive *)
Record world := mkworld { archive : string -> option (bytes * R); local : fs }.
Definition listing (w : world) (l : list (remote * transfer)) : Prop :=
  NoDup (map (fun x => r_name (fst x)) l) /\ Forall faithful l /\
  (forall p d m, archive w p = Some (d, m) <-> exists x, In x l /\ fst x = mkremote p d (Some m)) /\ forall x, In x l -> exists m, r_mtime (fst x) = Some m.
Inductive history (hash : bytes -> string) (o : options) : world -> Prop :=
| h_start a : history hash o (mkworld a (fun _ => None))
| h_publish w p d m : history hash o w -> (forall d0 m0, archive w p = Some (d0, m0) -> even_between m0 m) -> history hash o (mkworld (fun q => if String.eqb q p then Some (d, m) else archive w q) (local w))
| h_sync w l : history hash o w -> listing w l -> history hash o (mkworld (archive w) (exec (fst (sync hash o (fun p => p) l (local w))) (local w))).

(** ** Proofs *)
Lemma even_lt a b : (even b >? even a)%Z = true <-> even_between a b.
Proof.
  destruct (PropUtil2.C61_even a) as (Ea & La & Ma), (PropUtil2.C61_even b) as (Eb & Lb & Mb). rewrite Z.gtb_gt. split.
  - intros H. exists (even b). split; [exact Eb|]. split; [|exact Lb]. destruct (Rlt_le_dec a (IZR (even b))) as [K|K]; [exact K|]. specialize (Ma _ Eb K). lia.
  - intros (n & E & L & U). pose proof (Mb n E U) as H. destruct (Z_lt_le_dec (even a) n) as [K|K]; [lia|]. apply IZR_le in K. lra.
Qed.
Lemma even_not a b : (even b >? even a)%Z = false <-> ~ even_between a b.
Proof. rewrite <- even_lt. destruct (even b >? even a)%Z; split; congruence. Qed.
Lemma exec_app l1 l2 f : exec (l1 ++ l2) f = exec l2 (exec l1 f).
Proof. unfold exec. apply fold_left_app. Qed.
Lemma exec_cons o l f : exec (o :: l) f = exec l (set_file f (fst o) (apply (snd o) (f (fst o)))).
Proof. reflexivity. Qed.
Lemma set_same f p x : set_file f p x p = x.
Proof. unfold set_file. rewrite String.eqb_refl. reflexivity. Qed.
Lemma set_other f p q x : q <> p -> set_file f p x q = f q.
Proof. intros H. unfold set_file. destruct (String.eqb_spec q p); [contradiction|reflexivity]. Qed.
Lemma exec_other p : forall l f, (forall o, In o l -> fst o <> p) -> exec l f p = f p.
Proof. induction l as [|o l IH]; intros f H; [reflexivity|]. rewrite exec_cons, IH by (intros; apply H; right; assumption). apply set_other. intros E. apply (H o); [left; reflexivity|congruence]. Qed.
Lemma exec_writes p : forall cs f x, f p = Some x -> exec (map (fun c : R * bytes => (p, Write (fst c) (snd c))) cs) f p = Some (mkfile (content x ++ concat (map snd cs)) (last (map fst cs) (mtime x))).
Proof.
  induction cs as [|c cs IH]; intros f x H; [cbn; rewrite H, app_nil_r; destruct x; reflexivity|]. cbn [map]. rewrite exec_cons. cbn [fst snd].
  rewrite (IH _ (mkfile (content x ++ snd c) (fst c))) by (rewrite set_same, H; reflexivity). cbn [content mtime concat map]. rewrite app_assoc. f_equal. f_equal.
  destruct (map fst cs) as [|a t] eqn:E; [reflexivity|]. generalize (fst c), (mtime x). clear. revert a. induction t as [|b t IH]; intros a u v; [reflexivity|]. exact (IH b u v).
Qed.
Definition arriving (p : string) (t : transfer) : list op := ((p, Open (t_open t)) :: map (fun c => (p, Write (fst c) (snd c))) (t_chunks t))%list.
Lemma exec_arriving p t f : exec (arriving p t) f p = Some (mkfile (concat (map snd (t_chunks t))) (last (map fst (t_chunks t)) (t_open t))).
Proof. unfold arriving. rewrite exec_cons. cbn [fst snd]. rewrite (exec_writes p _ _ (mkfile [] (t_open t))) by (rewrite set_same; reflexivity). reflexivity. Qed.
Lemma arriving_path p t o : In o (arriving p t) -> fst o = p.
Proof. intros [<-|H]; [reflexivity|]. apply in_map_iff in H. destruct H as (c & <- & _). reflexivity. Qed.
Lemma copy_ok p r t m : r_mtime r = Some m -> copy_steps p r t = ((arriving p t ++ [(p, Utime m)])%list, Ok tt).
Proof. intros H. unfold copy_steps. rewrite H. reflexivity. Qed.
Lemma copy_done p r t m f : r_mtime r = Some m -> faithful (r, t) -> exec (fst (copy_steps p r t)) f p = Some (mkfile (r_data r) m).
Proof. intros H F. rewrite (copy_ok _ _ _ _ H). cbn [fst]. rewrite exec_app. unfold exec at 1. cbn [fold_left fst snd]. rewrite set_same, exec_arriving. cbn [apply content]. rewrite F. reflexivity. Qed.
Lemma copy_path p r t o : In o (fst (copy_steps p r t)) -> fst o = p.
Proof. unfold copy_steps. change (((p, Open (t_open t)) :: _)%list) with (arriving p t). destruct (r_mtime r); cbn [fst]; [rewrite in_app_iff; intros [H|[<-|[]]]; [|reflexivity]|intros H]; eapply arriving_path; eassumption. Qed.
Lemma pull_path hash o p r t f x : In x (fst (pull hash o p r t f)) -> fst x = p.
Proof.
  unfold pull. match goal with |- context [match ?a with Ok _ => _ | Err _ => _ end] => destruct a as [b|e] end; [|intros []].
  destruct (b || o_clobber o)%bool; [|intros []]. destruct (o_list o); [intros []|]. apply copy_path.
Qed.
Lemma sync_path hash o place : forall l f x, In x (fst (sync hash o place l f)) -> In (fst x) (paths place l).
Proof.
  induction l as [|[r t] l IH]; intros f x H; [destruct H|]. cbn [sync] in H. destruct (snd (pull hash o (place (r_name r)) r t f)).
  - cbn [fst] in H. apply in_app_iff in H. destruct H as [H|H]; [left; symmetry; eapply pull_path; exact H|right; eapply IH; exact H].
  - left. symmetry. eapply pull_path. exact H.
Qed.

Section One.
Context (hash : bytes -> string) (o : options) (HL : o_list o = false).
Lemma pull_due p r t f m : r_mtime r = Some m -> due hash o (r_data r) m (f p) -> pull hash o p r t f = copy_steps p r t.
Proof.
  intros M D. unfold pull. rewrite HL. destruct (f p) as [x|]; [|reflexivity]. inversion D as [|y C|y C H|y C H]; subst y.
  - rewrite C, M. destruct (o_checksum o); rewrite Bool.orb_true_r; reflexivity.
  - rewrite C. apply String.eqb_neq in H. rewrite H. reflexivity.
  - rewrite C, M. apply even_lt in H. rewrite H. reflexivity.
Qed.
Lemma pull_not p r t f m : r_mtime r = Some m -> ~ due hash o (r_data r) m (f p) -> pull hash o p r t f = ([], Ok tt).
Proof.
  intros M D. unfold pull. destruct (f p) as [x|]; [|destruct D; constructor].
  assert (C : o_clobber o = false) by (destruct (o_clobber o) eqn:E; [destruct D; apply due_clobber; exact E|reflexivity]). rewrite C, M.
  destruct (o_checksum o) eqn:K.
  - destruct (String.eqb_spec (hash (content x)) (hash (r_data r))) as [E|E]; [reflexivity|]. destruct D. apply due_changed; assumption.
  - destruct (even m >? even (mtime x))%Z eqn:E; [|reflexivity]. destruct D. apply due_newer; [exact K|]. apply even_lt. exact E.
Qed.
Lemma due_dec d m x : due hash o d m x \/ ~ due hash o d m x.
Proof.
  destruct x as [x|]; [|left; constructor]. destruct (o_clobber o) eqn:C; [left; apply due_clobber; exact C|]. destruct (o_checksum o) eqn:K.
  - destruct (string_dec (hash (content x)) (hash d)) as [E|E]; [right; intros D; inversion D; congruence|left; apply due_changed; assumption].
  - destruct (even m >? even (mtime x))%Z eqn:E; [left; apply due_newer; [exact K|apply even_lt; exact E]|right; intros D; inversion D as [|y A B|y A B|y A B]; try congruence; apply even_not in E; contradiction].
Qed.
Lemma sync_ok place : forall l f, NoDup (paths place l) -> Forall faithful l -> (forall x, In x l -> exists m, r_mtime (fst x) = Some m) ->
  snd (sync hash o place l f) = Ok tt /\
  forall x m, In x l -> r_mtime (fst x) = Some m -> let p := place (r_name (fst x)) in
    (due hash o (r_data (fst x)) m (f p) -> exec (fst (sync hash o place l f)) f p = Some (mkfile (r_data (fst x)) m)) /\ (~ due hash o (r_data (fst x)) m (f p) -> exec (fst (sync hash o place l f)) f p = f p).
Proof.
  induction l as [|[r t] l IH]; intros f ND FF MM; [split; [reflexivity|intros x m []]|].
  inversion ND as [|a b NI ND']; subst. inversion FF as [|a b F1 F2]; subst. destruct (MM (r, t) (or_introl eq_refl)) as (m0 & M0). cbn [fst] in M0.
  assert (S0 : snd (pull hash o (place (r_name r)) r t f) = Ok tt).
  { destruct (due_dec (r_data r) m0 (f (place (r_name r)))) as [D|D]; [rewrite (pull_due _ _ _ _ _ M0 D), (copy_ok _ _ _ _ M0)|rewrite (pull_not _ _ _ _ _ M0 D)]; reflexivity. }
  set (f1 := exec (fst (pull hash o (place (r_name r)) r t f)) f). destruct (IH f1 ND' F2 (fun x H => MM x (or_intror H))) as (S1 & Q).
  cbn [sync]. rewrite S0. fold f1. cbn [fst snd]. split; [exact S1|].
  assert (O1 : forall p, p <> place (r_name r) -> f1 p = f p). { intros p Hp. apply exec_other. intros x Hx. rewrite (pull_path _ _ _ _ _ _ _ Hx). congruence. }
  intros x m [<-|H] M; cbv zeta; rewrite exec_app; fold f1.
  - cbn [fst] in *. rewrite (exec_other (place (r_name r)) (fst (sync hash o place l f1)) f1).
    2:{ intros y Hy E. apply NI. rewrite <- E. eapply sync_path. exact Hy. }
    unfold f1. split; intros D; [rewrite (pull_due _ _ _ _ _ M D); apply copy_done; assumption|rewrite (pull_not _ _ _ _ _ M D); reflexivity].
  - destruct (Q x m H M) as [Q1 Q2]. cbv zeta in Q1, Q2. assert (NE : place (r_name (fst x)) <> place (r_name r)).
    { intros E. apply NI. rewrite <- E. apply in_map_iff. exists x. split; [reflexivity|exact H]. }
    rewrite (O1 _ NE) in Q1, Q2. split; [exact Q1|exact Q2].
Qed.
End One.

(** ** C102 *)
(** A complete run: every listed file that is due has afterwards the contents and the modification time of the archive, the others are as before, and no other file is touched *)
Theorem C102_sync : forall hash o place l f, o_list o = false -> NoDup (paths place l) -> Forall faithful l -> (forall x, In x l -> exists m, r_mtime (fst x) = Some m) ->
  let s := sync hash o place l f in snd s = Ok tt /\
  (forall x m, In x l -> r_mtime (fst x) = Some m -> let p := place (r_name (fst x)) in
    (due hash o (r_data (fst x)) m (f p) -> exec (fst s) f p = Some (mkfile (r_data (fst x)) m)) /\ (~ due hash o (r_data (fst x)) m (f p) -> exec (fst s) f p = f p)) /\
  forall p, ~ In p (paths place l) -> exec (fst s) f p = f p.
Proof.
  intros hash o place l f HL ND FF MM. cbv zeta. destruct (sync_ok hash o HL place l f ND FF MM) as (A & B). split; [exact A|]. split; [exact B|].
  intros p Hp. apply exec_other. intros x Hx E. apply Hp. rewrite <- E. eapply sync_path. exact Hx.
Qed.
Print Assumptions C102_sync.
(** an interruption at any point, with any options and any listing, leaves all other files as they were *)
Theorem C102_interrupted_elsewhere : forall hash o place l f k p, ~ In p (paths place l) -> exec (firstn k (fst (sync hash o place l f))) f p = f p.
Proof. intros hash o place l f k p Hp. apply exec_other. intros x Hx E. apply Hp. rewrite <- E. apply (sync_path hash o place l f). rewrite <- (firstn_skipn k). apply in_or_app. left. exact Hx. Qed.
Print Assumptions C102_interrupted_elsewhere.
(** a second run, however its transfers would go, changes nothing *)
Theorem C102_idempotent : forall hash o place l l' f, o_list o = false -> o_clobber o = false -> NoDup (paths place l) -> Forall faithful l -> (forall x, In x l -> exists m, r_mtime (fst x) = Some m) ->
  map fst l' = map fst l -> sync hash o place l' (exec (fst (sync hash o place l f)) f) = ([], Ok tt).
Proof.
  intros hash o place l l' f HL HC ND FF MM E. destruct (sync_ok hash o HL place l f ND FF MM) as (_ & Q). set (f1 := exec (fst (sync hash o place l f)) f) in *.
  assert (N : forall x m, In x l -> r_mtime (fst x) = Some m -> ~ due hash o (r_data (fst x)) m (f1 (place (r_name (fst x))))).
  { intros x m Hx M D. destruct (Q x m Hx M) as [Q1 Q2]. cbv zeta in Q1, Q2. destruct (due_dec hash o (r_data (fst x)) m (f (place (r_name (fst x))))) as [K|K].
    - rewrite (Q1 K) in D. inversion D as [|y A B|y A B|y A B]; subst; cbn [content mtime] in *; try congruence. destruct B as (n & _ & B). lra.
    - rewrite (Q2 K) in D. contradiction. }
  assert (G : forall y, In y l' -> exists m, r_mtime (fst y) = Some m /\ ~ due hash o (r_data (fst y)) m (f1 (place (r_name (fst y))))).
  { intros y Hy. assert (In (fst y) (map fst l)) by (rewrite <- E; apply in_map; exact Hy). apply in_map_iff in H. destruct H as (x & Ex & Hx). destruct (MM x Hx) as (m & M). rewrite <- Ex. exists m. split; [exact M|]. apply N; assumption. }
  clearbody f1. clear Q N E ND FF MM. induction l' as [|[r t] l' IH]; [reflexivity|]. destruct (G (r, t) (or_introl eq_refl)) as (m & M & D). cbn [fst] in M, D.
  cbn [sync]. rewrite (pull_not hash o _ _ _ _ _ M D). cbn [fst snd exec fold_left app]. rewrite IH by (intros y Hy; apply G; right; exact Hy). reflexivity.
Qed.
Print Assumptions C102_idempotent.
(** with CLOBBER, or with CHECKSUM and no collision of the hashes of local file and remote file, the contents are those of the archive after the run, whatever was there before: files left by
    interrupted runs are repaired *)
Theorem C102_repair : forall hash o place l f, o_list o = false -> NoDup (paths place l) -> Forall faithful l -> (forall x, In x l -> exists m, r_mtime (fst x) = Some m) ->
  o_clobber o = true \/ o_checksum o = true /\ (forall x y, In x l -> f (place (r_name (fst x))) = Some y -> hash (content y) = hash (r_data (fst x)) -> content y = r_data (fst x)) ->
  forall x, In x l -> exists m, exec (fst (sync hash o place l f)) f (place (r_name (fst x))) = Some (mkfile (r_data (fst x)) m).
Proof.
  intros hash o place l f HL ND FF MM H x Hx. destruct (sync_ok hash o HL place l f ND FF MM) as (_ & Q). destruct (MM x Hx) as (m & M). destruct (Q x m Hx M) as [Q1 Q2]. cbv zeta in Q1, Q2.
  destruct (due_dec hash o (r_data (fst x)) m (f (place (r_name (fst x))))) as [D|D]; [exists m; apply Q1; exact D|]. rewrite (Q2 D). destruct (f (place (r_name (fst x)))) as [y|] eqn:E; [|destruct D; constructor].
  exists (mtime y). destruct H as [C|(K & I)]; [destruct D; apply due_clobber; exact C|]. rewrite <- (I x y Hx E); [destruct y; reflexivity|].
  destruct (string_dec (hash (content y)) (hash (r_data (fst x)))) as [S|S]; [exact S|]. destruct D. apply due_changed; assumption.
Qed.
Print Assumptions C102_repair.
(** histories without interruptions, in which every new version of a file in the archive is later by an even second: a complete run makes the local files those of the archive, with their times *)
Lemma history_inv hash o w : o_list o = false -> o_checksum o = false -> history hash o w -> forall p x, local w p = Some x ->
  exists d m, archive w p = Some (d, m) /\ (x = mkfile d m \/ even_between (mtime x) m).
Proof.
  intros HL HK H. induction H as [a|w q d m H IH HP|w l H IH HLs]; intros p x E; cbn [local archive] in *.
  - discriminate.
  - destruct (IH p x E) as (d0 & m0 & A & B). destruct (String.eqb_spec p q) as [->|N]; [|exists d0, m0; split; assumption].
    exists d, m. split; [reflexivity|]. right. destruct (HP d0 m0 A) as (n & En & L & U). destruct B as [->|(n' & En' & L' & U')]; [exists n; auto|exists n; split; [exact En|]; lra].
  - destruct HLs as (ND & FF & AR & MM). assert (ND' : NoDup (paths (fun p => p) l)) by exact ND. destruct (sync_ok hash o HL (fun p => p) l (local w) ND' FF MM) as (_ & Q).
    destruct (in_dec string_dec p (paths (fun p => p) l)) as [I|I].
    + apply in_map_iff in I. destruct I as (y & Ey & Hy). destruct (MM y Hy) as (m & M). destruct (Q y m Hy M) as [Q1 Q2]. cbv zeta in Q1, Q2. rewrite Ey in Q1, Q2.
      assert (A : archive w p = Some (r_data (fst y), m)). { apply AR. exists y. split; [exact Hy|]. destruct y as [[nm dt mt] t]. cbn [fst r_name r_data r_mtime] in *. congruence. }
      destruct (due_dec hash o (r_data (fst y)) m (local w p)) as [D|D].
      * rewrite (Q1 D) in E. injection E as <-. exists (r_data (fst y)), m. split; [exact A|left; reflexivity].
      * rewrite (Q2 D) in E. exact (IH p x E).
    + rewrite exec_other in E; [exact (IH p x E)|]. intros z Hz Ez. apply I. rewrite <- Ez. eapply sync_path. exact Hz.
Qed.
Theorem C102_history : forall hash o w l, o_list o = false -> o_checksum o = false -> history hash o w -> listing w l ->
  snd (sync hash o (fun p => p) l (local w)) = Ok tt /\ forall p d m, archive w p = Some (d, m) -> exec (fst (sync hash o (fun p => p) l (local w))) (local w) p = Some (mkfile d m).
Proof.
  intros hash o w l HL HK H (ND & FF & AR & MM). destruct (sync_ok hash o HL (fun p => p) l (local w) ND FF MM) as (S & Q). split; [exact S|]. intros p d m A.
  destruct (proj1 (AR p d m) A) as (y & Hy & Ey). destruct (Q y m Hy ltac:(rewrite Ey; reflexivity)) as [Q1 Q2]. rewrite Ey in Q1, Q2. cbn [r_data r_name] in Q1, Q2.
  destruct (due_dec hash o d m (local w p)) as [D|D]; [exact (Q1 D)|]. rewrite (Q2 D). destruct (local w p) as [x|] eqn:E; [|destruct D; constructor].
  destruct (history_inv hash o w HL HK H p x E) as (d' & m' & A' & B). rewrite A in A'. injection A' as <- <-. destruct B as [->|B]; [reflexivity|]. destruct D. apply due_newer; assumption.
Qed.
Print Assumptions C102_history.
Lemma last_bound m : forall (l : list (R * bytes)) u, m <= u -> (forall c, In c l -> m <= fst c) -> m <= last (map fst l) u.
Proof.
  induction l as [|a l IH]; intros u Hu Hl; [exact Hu|]. cbn [map]. destruct l as [|b l]; [apply Hl; left; reflexivity|].
  cbn [map] in *. change (last (fst a :: fst b :: map fst l) u) with (last (fst b :: map fst l) u). apply (IH u Hu). intros c Hc. apply Hl. right. exact Hc.
Qed.
(** an interruption between the opening of the local file and the setting of its time, by a program without CHECKSUM, at a time not before that of the remote file: the local file holds the first
    pieces only, and no later run without CLOBBER and CHECKSUM takes any step *)
Theorem C102_crash_refuted : forall hash o o' p r t m f k, o_list o = false -> r_mtime r = Some m -> faithful (r, t) -> due hash o (r_data r) m (f p) ->
  m <= t_open t -> (forall c, In c (t_chunks t) -> m <= fst c) -> (k <= List.length (t_chunks t))%nat -> o_clobber o' = false -> o_checksum o' = false ->
  exists x, exec (firstn (S k) (fst (pull hash o p r t f))) f p = Some x /\ content x = concat (map snd (firstn k (t_chunks t))) /\ r_data r = (content x ++ concat (map snd (skipn k (t_chunks t))))%list /\
    forall g t', g p = Some x -> pull hash o' p r t' g = ([], Ok tt).
Proof.
  intros hash o o' p r t m f k HL M F D HO HC Hk C K. rewrite (pull_due hash o HL _ _ _ _ _ M D), (copy_ok _ _ _ _ M). cbn [fst].
  assert (E : firstn (S k) (arriving p t ++ [(p, Utime m)]) = arriving p (mktransfer (t_open t) (firstn k (t_chunks t)))).
  { unfold arriving. cbn [app firstn t_open t_chunks]. f_equal. rewrite firstn_app, map_length. replace (k - List.length (t_chunks t))%nat with 0%nat by lia. rewrite firstn_O, app_nil_r. apply firstn_map. }
  rewrite E, exec_arriving. cbn [t_chunks t_open]. eexists. split; [reflexivity|]. cbn [content]. split; [reflexivity|]. split.
  - unfold faithful in F. cbn [fst snd] in F. rewrite <- F, <- concat_app, <- map_app, firstn_skipn. reflexivity.
  - intros g t' G. apply (pull_not hash o' p r t' g m M). rewrite G. intros Q. inversion Q as [|y A|y A B|y A B]; subst; try congruence. cbn [mtime] in B. destruct B as (n & _ & B1 & B2).
    assert (L : m <= last (map fst (firstn k (t_chunks t))) (t_open t)).
    { apply last_bound; [exact HO|]. intros c Hc. apply HC. rewrite <- (firstn_skipn k). apply in_or_app. left. exact Hc. }
    lra.
Qed.
Print Assumptions C102_crash_refuted.
(** a new version that is one second younger than an even second is overlooked *)
Theorem C102_second_refuted : forall hash o p d d0 t f (s : Z), Z.Even s -> o_clobber o = false -> o_checksum o = false -> f p = Some (mkfile d0 (IZR s)) ->
  pull hash o p (mkremote p d (Some (IZR (s + 1)))) t f = ([], Ok tt).
Proof.
  intros hash o p d d0 t f s (j & Ej) C K E. apply (pull_not hash o p (mkremote p d (Some (IZR (s + 1)))) t f (IZR (s + 1)) eq_refl). rewrite E. intros D. inversion D as [|y A|y A B|y A B]; subst y; try congruence.
  cbn [mtime] in B. destruct B as (n & (i & Ei) & B1 & B2). apply lt_IZR in B1. apply le_IZR in B2. lia.
Qed.
Print Assumptions C102_second_refuted.
(** a file without modification time (the server refuses MDTM) stops every run with TypeError: the files after it in the listing are never fetched, however often the program is run *)
Theorem C102_no_time_refuted : forall hash o place l1 r t l2 f, o_list o = false -> o_checksum o = false -> r_mtime r = None ->
  let s := sync hash o place (l1 ++ (r, t) :: l2) f in snd s = Err TypeError /\ forall p, ~ In p (paths place (l1 ++ [(r, t)])) -> exec (fst s) f p = f p.
Proof.
  intros hash o place l1 r t l2 f HL HK HM. cbv zeta.
  assert (P : forall g, snd (pull hash o (place (r_name r)) r t g) = Err TypeError).
  { intros g. unfold pull. rewrite HK, HL, HM. destruct (g (place (r_name r))); [reflexivity|]. cbn [orb]. unfold copy_steps. rewrite HM. reflexivity. }
  assert (T : forall r' t' g, snd (pull hash o (place (r_name r')) r' t' g) = Ok tt \/ snd (pull hash o (place (r_name r')) r' t' g) = Err TypeError).
  { intros r' t' g. unfold pull. rewrite HK, HL. destruct (g (place (r_name r'))); [destruct (r_mtime r') eqn:M; [destruct (_ || _)%bool; unfold copy_steps; rewrite ?M|]; auto|]. cbn [orb]. unfold copy_steps. destruct (r_mtime r'); auto. }
  assert (G : snd (sync hash o place (l1 ++ (r, t) :: l2) f) = Err TypeError /\ forall x, In x (fst (sync hash o place (l1 ++ (r, t) :: l2) f)) -> In (fst x) (paths place (l1 ++ [(r, t)]))).
  { revert f. induction l1 as [|[r' t'] l1 IH]; intros f; cbn [app sync].
    - rewrite P. split; [apply P|]. intros x Hx. left. symmetry. eapply pull_path. exact Hx.
    - destruct (T r' t' f) as [E|E]; rewrite E.
      + cbn [fst snd]. destruct (IH (exec (fst (pull hash o (place (r_name r')) r' t' f)) f)) as [A B]. split; [exact A|]. intros x Hx. apply in_app_iff in Hx. destruct Hx as [Hx|Hx]; [left; symmetry; eapply pull_path; exact Hx|right; apply B; exact Hx].
      + split; [exact E|]. intros x Hx. left. symmetry. eapply pull_path. exact Hx. }
  destruct G as [A B]. split; [exact A|]. intros p Hp. apply exec_other. intros x Hx E. apply Hp. rewrite <- E. apply B. exact Hx.
Qed.
Print Assumptions C102_no_time_refuted.
(** LIST only prints *)
Theorem C102_list : forall hash o place l f, o_list o = true -> fst (sync hash o place l f) = [].
Proof.
  intros hash o place l f H. revert f. induction l as [|[r t] l IH]; intros f; [reflexivity|]. cbn [sync].
  assert (P : fst (pull hash o (place (r_name r)) r t f) = []). { unfold pull. rewrite H. match goal with |- context [match ?a with Ok _ => _ | Err _ => _ end] => destruct a end; [|reflexivity]. destruct (_ || _)%bool; reflexivity. }
  destruct (snd (pull hash o (place (r_name r)) r t f)); [|exact P]. cbn [fst]. rewrite P, IH. reflexivity.
Qed.
Print Assumptions C102_list.
(** from_http with the hash of the local file: the buffer is the remote file; the local file has its contents afterwards, whatever was there before (also after an interrupted transfer), unless hashes
    collide; nothing is written if the contents agree *)
Theorem C102_from_http : forall hash p data t f, (forall b, hash b <> EmptyString) -> concat (map snd (t_chunks t)) = data ->
  (forall x, f p = Some x -> hash (content x) = hash data -> content x = data) ->
  let s := from_http hash (Some p) (get_hash hash f p) data t in
  snd s = data /\ (exists m, exec (fst s) f p = Some (mkfile data m)) /\ (forall q, q <> p -> exec (fst s) f q = f q) /\ (forall x, f p = Some x -> content x = data -> fst s = []).
Proof.
  intros hash p data t f HE HT HC. cbv zeta. unfold from_http, get_hash. cbn [fst snd]. split; [reflexivity|]. change (((p, Open (t_open t)) :: _)%list) with (arriving p t). split; [|split].
  - destruct (f p) as [x|] eqn:E.
    + destruct (String.eqb_spec (hash (content x)) (hash data)) as [K|K]; [exists (mtime x); cbn; rewrite E, <- (HC x eq_refl K); destruct x; reflexivity|]. rewrite exec_arriving, HT. eauto.
    + destruct (String.eqb_spec EmptyString (hash data)) as [K|K]; [destruct (HE data); congruence|]. rewrite exec_arriving, HT. eauto.
  - intros q Hq. match goal with |- context [if ?b then _ else _] => destruct b end; [reflexivity|]. apply exec_other. intros x Hx. rewrite (arriving_path _ _ _ Hx). congruence.
  - intros x E C. rewrite E, C, String.eqb_refl. reflexivity.
Qed.
Print Assumptions C102_from_http.
(** from_ftp in addition gives the local file the time of the remote file, if it was written *)
Theorem C102_from_ftp : forall hash p data m t f, concat (map snd (t_chunks t)) = data -> get_hash hash f p <> hash data ->
  let s := from_ftp hash (Some p) (get_hash hash f p) data (Some m) t in snd s = Ok data /\ exec (fst s) f p = Some (mkfile data m) /\ forall q, q <> p -> exec (fst s) f q = f q.
Proof.
  intros hash p data m t f HT HD. cbv zeta. unfold from_ftp. apply String.eqb_neq in HD. rewrite HD. cbn [fst snd]. split; [reflexivity|]. split.
  - apply (copy_done p (mkremote p data (Some m)) t m f eq_refl HT).
  - intros q Hq. apply exec_other. intros x Hx. rewrite (copy_path _ _ _ _ Hx). congruence.
Qed.
Print Assumptions C102_from_ftp.
(** nothing is written if the local file has the hash of the data or no local file is wanted; without a remote time the data arrive but the call raises and the file keeps the time of writing *)
Theorem C102_from_ftp_cases : forall hash p data m t f,
  (get_hash hash f p = hash data -> from_ftp hash (Some p) (get_hash hash f p) data m t = ([], Ok data)) /\ (forall h, from_ftp hash None h data m t = ([], Ok data)) /\
  (concat (map snd (t_chunks t)) = data -> get_hash hash f p <> hash data -> m = None ->
   let s := from_ftp hash (Some p) (get_hash hash f p) data m t in (exists e, snd s = Err e) /\ exists u, exec (fst s) f p = Some (mkfile data u)).
Proof.
  intros hash p data m t f. split; [|split].
  - intros E. unfold from_ftp. rewrite E, String.eqb_refl. reflexivity.
  - reflexivity.
  - intros HT HD ->. cbv zeta. unfold from_ftp. apply String.eqb_neq in HD. rewrite HD. cbn [copy_steps r_mtime fst snd bind]. split; [eauto|]. change (((p, Open (t_open t)) :: _)%list) with (arriving p t). rewrite exec_arriving, HT. eauto.
Qed.
Print Assumptions C102_from_ftp_cases.

(** ftp_list and http_list: each name keeps its own time, names that do not match are dropped, and the names are in order *)
Lemma take_combine {A B} (l : list A) (k : list B) d e is : List.length l = List.length k -> (forall i, In i is -> (i < List.length l)%nat) -> combine (take l d is) (take k e is) = map (fun i => nth i (combine l k) (d, e)) is.
Proof.
  intros H. induction is as [|i is IH]; intros HI; [reflexivity|]. cbn [take map combine]. f_equal; [|apply IH; intros; apply HI; right; assumption]. symmetry. apply combine_nth. exact H.
Qed.
Lemma map_nth_self {A} (d : A) : forall l, map (fun i => nth i l d) (seq 0 (List.length l)) = l.
Proof. intros l. apply (nth_ext _ _ d d); rewrite map_length, seq_length; [reflexivity|]. intros n Hn. rewrite (nth_indep _ d (nth 0 l d)) by (rewrite map_length, seq_length; exact Hn). rewrite (map_nth (fun i => nth i l d)), seq_nth by exact Hn. reflexivity. Qed.
Lemma filter_index {A} (q : A -> bool) (d : A) (l : list A) : map (fun i => nth i l d) (filter (fun i => q (nth i l d)) (seq 0 (List.length l))) = filter q l.
Proof.
  transitivity (filter q (map (fun i => nth i l d) (seq 0 (List.length l)))); [|rewrite map_nth_self; reflexivity].
  generalize (seq 0 (List.length l)). intros s. induction s as [|i s IH]; [reflexivity|]. cbn [filter map]. destruct (q (nth i l d)); cbn [map]; rewrite IH; reflexivity.
Qed.
Lemma insert_perm {A} leb (x : nat * A) : forall l, Permutation (insert_by leb x l) (x :: l).
Proof. induction l as [|y l IH]; [reflexivity|]. cbn [insert_by]. destruct (leb (snd x) (snd y)); [reflexivity|]. rewrite IH. apply perm_swap. Qed.
Lemma sort_perm {A} leb : forall l : list (nat * A), Permutation (sort_by leb l) l.
Proof. induction l as [|x l IH]; [reflexivity|]. cbn [sort_by fold_right]. unfold sort_by in IH. rewrite insert_perm, IH. reflexivity. Qed.
Section Order.
Context (leb : string -> string -> bool) (tot : forall a b, leb a b = true \/ leb b a = true) (tr : forall a b c, leb a b = true -> leb b c = true -> leb a c = true).
Definition le2 (a b : nat * string) : Prop := leb (snd a) (snd b) = true.
Lemma insert_sorted x : forall l, StronglySorted le2 l -> StronglySorted le2 (insert_by leb x l).
Proof.
  induction l as [|y l IH]; intros H; [repeat constructor|]. cbn [insert_by]. inversion H as [|a b H1 H2]; subst. destruct (leb (snd x) (snd y)) eqn:E.
  - constructor; [exact H|]. constructor; [exact E|]. eapply Forall_impl; [|exact H2]. intros z Hz. exact (tr _ _ _ E Hz).
  - constructor; [apply IH; exact H1|]. assert (L : le2 y x) by (destruct (tot (snd y) (snd x)) as [K|K]; [exact K|congruence]).
    rewrite Forall_forall in *. intros z Hz. apply (Permutation_in _ (insert_perm leb x l)) in Hz. destruct Hz as [<-|Hz]; [exact L|apply H2; exact Hz].
Qed.
Lemma sort_sorted : forall l, StronglySorted le2 (sort_by leb l).
Proof. induction l as [|x l IH]; [constructor|]. apply insert_sorted. exact IH. Qed.
End Order.
Theorem C102_listing : forall leb pattern sort names times, (forall a b, leb a b = true \/ leb b a = true) -> (forall a b c, leb a b = true -> leb b c = true -> leb a c = true) -> List.length names = List.length times ->
  let s := list_files leb pattern sort names times in let keep := match pattern with Some q => q | None => fun _ => true end in
  List.length (fst s) = List.length (snd s) /\ Permutation (combine (fst s) (snd s)) (filter (fun x => keep (fst x)) (combine names times)) /\
  (if sort then StronglySorted (fun a b => leb a b = true) (fst s) else combine (fst s) (snd s) = filter (fun x => keep (fst x)) (combine names times)).
Proof.
  intros leb pattern sort names times TOT TR HL. cbv zeta. unfold list_files.
  set (a := match pattern with Some q => _ | None => (names, times) end).
  assert (A : List.length (fst a) = List.length (snd a) /\ combine (fst a) (snd a) = filter (fun x => (match pattern with Some q => q | None => fun _ => true end) (fst x)) (combine names times)).
  { unfold a. destruct pattern as [q|]; cbn [fst snd].
    - split; [unfold take; rewrite !map_length; reflexivity|]. rewrite take_combine by (try exact HL; intros i Hi; apply filter_In in Hi; destruct Hi as [Hi _]; apply in_seq in Hi; lia).
      rewrite <- (filter_index (fun x : string * option R => q (fst x)) (EmptyString, None) (combine names times)), combine_length, <- HL, Nat.min_id. f_equal. apply filter_ext_in. intros i _. rewrite combine_nth by exact HL. reflexivity.
    - split; [exact HL|]. induction (combine names times) as [|x l IH]; [reflexivity|]. cbn [filter]. f_equal. exact IH. }
  destruct A as [A1 A2]. destruct sort; [|split; [exact A1|]; split; [rewrite A2; reflexivity|exact A2]]. cbn [fst snd].
  set (ns := fst a) in *. set (tm := snd a) in *. clearbody ns tm. clear a. set (so := sort_by leb (combine (seq 0 (List.length ns)) ns)). set (is := map fst so).
  assert (P0 : Permutation so (combine (seq 0 (List.length ns)) ns)) by apply sort_perm.
  assert (FC : forall (s : list nat) (l : list string), List.length s = List.length l -> map fst (combine s l) = s /\ map snd (combine s l) = l).
  { induction s as [|x s IH]; intros [|y l] H; try discriminate; [split; reflexivity|]. cbn [combine map fst snd]. injection H as H. destruct (IH l H) as [-> ->]. split; reflexivity. }
  assert (P1 : Permutation is (seq 0 (List.length ns))). { unfold is. rewrite P0. destruct (FC (seq 0 (List.length ns)) ns (seq_length _ _)) as [-> _]. reflexivity. }
  assert (IN : forall i, In i is -> (i < List.length ns)%nat) by (intros i Hi; apply (Permutation_in _ P1), in_seq in Hi; lia).
  split; [unfold take; rewrite !map_length; reflexivity|]. split.
  - rewrite take_combine by assumption. rewrite P1, <- A2. replace (List.length ns) with (List.length (combine ns tm)) by (rewrite combine_length, <- A1; lia). rewrite map_nth_self. reflexivity.
  - assert (T : take ns EmptyString is = map snd so).
    { unfold take, is. rewrite map_map. apply map_ext_in. intros [i y] Hi. apply (Permutation_in _ P0) in Hi. cbn [fst snd]. apply (In_nth _ _ (0%nat, EmptyString)) in Hi. destruct Hi as (j & Hj & E).
      rewrite combine_length, seq_length, Nat.min_id in Hj. rewrite combine_nth in E by apply seq_length. injection E as E1 E2. rewrite seq_nth in E1 by exact Hj. cbn in E1. subst i. exact E2. }
    rewrite T. pose proof (sort_sorted leb TOT TR (combine (seq 0 (List.length ns)) ns)) as S. fold so in S. clear - S. induction S as [|x l S IH F]; [constructor|]. cbn [map]. constructor; [exact IH|].
    rewrite Forall_forall in *. intros y Hy. apply in_map_iff in Hy. destruct Hy as (z & <- & Hz). apply F. exact Hz.
Qed.
Print Assumptions C102_listing.

(** ** concrete run for C102: two files, one out of date; without and with interruption *)
Definition b0 : Coq.Init.Byte.byte := Coq.Init.Byte.x61.
Definition ex_hash (b : bytes) : string := ("m" ++ String.string_of_list_byte b)%string.
Definition ex_opt : options := mkoptions false false false.
Definition ex_list : list (remote * transfer) :=
  [(mkremote "a.gz" [b0; b0] (Some 100), mktransfer 200 [(201, [b0]); (202, [b0])]); (mkremote "b.gz" [b0] (Some 50), mktransfer 203 [(204, [b0])])].
Example C102_example : NoDup (paths (fun p => p) ex_list) /\ Forall faithful ex_list /\ (forall x, In x ex_list -> exists m, r_mtime (fst x) = Some m) /\
  history ex_hash ex_opt (mkworld (fun p => if String.eqb p "b.gz" then Some ([b0], 50) else if String.eqb p "a.gz" then Some ([b0; b0], 100) else None) (fun _ => None)) /\
  listing (mkworld (fun p => if String.eqb p "b.gz" then Some ([b0], 50) else if String.eqb p "a.gz" then Some ([b0; b0], 100) else None) (fun _ => None)) ex_list /\
  (exists x, exec (firstn 2 (fst (pull ex_hash ex_opt "a.gz" (fst (hd (mkremote "" [] None, mktransfer 0 []) ex_list)) (snd (hd (mkremote "" [] None, mktransfer 0 []) ex_list)) (fun _ => None)))) (fun _ => None) "a.gz"%string = Some x /\ content x = [b0]).
Proof.
  assert (ND : NoDup (map (fun x => r_name (fst x)) ex_list)) by (cbn; repeat constructor; cbn; intuition congruence). assert (FF : Forall faithful ex_list) by (repeat constructor).
  assert (MM : forall x, In x ex_list -> exists m, r_mtime (fst x) = Some m) by (intros x [<-|[<-|[]]]; cbn; eauto).
  split; [exact ND|]. split; [exact FF|]. split; [exact MM|]. split; [apply h_start|]. split; [|eexists; split; reflexivity].
  split; [exact ND|]. split; [exact FF|]. split; [|exact MM]. intros p d m. cbn [archive]. split.
  - intros E. destruct (String.eqb_spec p "b.gz") as [->|]; [injection E as <- <-; eexists; split; [right; left; reflexivity|reflexivity]|]. destruct (String.eqb_spec p "a.gz") as [->|]; [|discriminate]. injection E as <- <-. eexists. split; [left; reflexivity|reflexivity].
  - intros (x & [<-|[<-|[]]] & E); injection E as <- <- <-; reflexivity.
Qed.

(** ** C103 *)
(** the pages of a server that returns the next n entries on request: the listing is complete and in order *)
Theorem C103_pages : forall (A : Type) (files : list A) n fuel, (0 < n)%nat -> (List.length files / n < fuel)%nat ->
  esa_list (fun pos k => firstn k (skipn pos files)) fuel 0 n [] = Some files.
Proof.
  intros A files n fuel Hn Hf.
  assert (G : forall fuel pos acc, (pos <= List.length files)%nat -> ((List.length files - pos) / n < fuel)%nat -> acc = firstn pos files -> esa_list (fun pos k => firstn k (skipn pos files)) fuel pos n acc = Some files).
  { clear fuel Hf. induction fuel as [|fuel IH]; intros pos acc Hp Hf ->; [destruct (Nat.nlt_0_r _ Hf)|]. cbn [esa_list]. rewrite firstn_length, skipn_length.
    assert (AC : (firstn pos files ++ firstn n (skipn pos files))%list = firstn (pos + n) files).
    { clear. revert files. induction pos as [|pos IH]; intros [|x files]; cbn [app firstn skipn Nat.add]; try reflexivity; [rewrite firstn_nil; reflexivity|]. f_equal. apply IH. }
    destruct (Nat.eqb_spec (Nat.min n (List.length files - pos)) n) as [E|E].
    - rewrite E. apply IH; [lia| |exact AC]. assert (n <= List.length files - pos)%nat by lia.
      replace (List.length files - pos)%nat with (1 * n + (List.length files - (pos + n)))%nat in Hf by lia. rewrite Nat.div_add_l in Hf by lia. lia.
    - rewrite AC, firstn_all2 by lia. reflexivity. }
  apply G; [lia|rewrite Nat.sub_0_r; exact Hf|reflexivity].
Qed.
Print Assumptions C103_pages.
(** a server that gives fewer entries than asked for: only the first page is listed *)
Theorem C103_short_pages_refuted : forall (A : Type) (files : list A) n c fuel, (c < n)%nat -> esa_list (fun pos k => firstn (Nat.min k c) (skipn pos files)) (S fuel) 0 n [] = Some (firstn c files).
Proof. intros A files n c fuel H. cbn [esa_list app skipn]. rewrite Nat.min_r by lia. rewrite firstn_length. replace (Nat.min c (List.length files) =? n)%nat with false by lia. reflexivity. Qed.
Print Assumptions C103_short_pages_refuted.
(** with LIST the index names every valid file of the archive although none is transferred *)
Theorem C103_index_refuted : forall hash o valid l f, o_list o = true -> let names := map (fun x => r_name (fst x)) l in
  exec (fst (sync hash o (fun p => p) l f)) f = f /\ forall p, In p (esa_index valid names) <-> In p names /\ valid p = true.
Proof. intros hash o valid l f H. cbv zeta. rewrite (C102_list hash o (fun p => p) l f H). split; [reflexivity|]. intros p. apply filter_In. Qed.
Print Assumptions C103_index_refuted.
(** cnes_grace_sync without a log file cannot fetch an archive *)
Theorem C103_log_refuted : forall hash p data m t f, cnes_download false hash p data m t f = ([], Err UnboundLocalError).
Proof. reflexivity. Qed.
Print Assumptions C103_log_refuted.
(** with a log file: the archive has afterwards the contents and the time of the server, whatever was there before *)
Theorem C103_archive : forall hash p data m t f, (forall b, hash b <> EmptyString) -> concat (map snd (t_chunks t)) = data -> (forall x, f p = Some x -> hash (content x) = hash data -> content x = data) ->
  let s := cnes_download true hash p data m t f in snd s = Ok tt /\ exec (fst s) f p = Some (mkfile data m).
Proof.
  intros hash p data m t f HE HT HC. cbv zeta. unfold cnes_download. cbn [negb fst snd]. split; [reflexivity|].
  destruct (C102_from_http hash p data t f HE HT HC) as (_ & (m' & E) & _). rewrite exec_app. unfold exec at 1. cbn [fold_left fst snd]. rewrite set_same, E. reflexivity.
Qed.
Print Assumptions C103_archive.
(** the compressed copies: a file is written when it is missing, when the time in its header is before that of the member, or with CLOBBER; a second run changes nothing *)
Theorem C103_gzip : forall time_of clobber p g m t f, concat (map snd (t_chunks t)) = g -> (8 <= List.length g)%nat -> time_of (firstn 4 (skipn 4 g)) = m ->
  (f p = None \/ exists x, f p = Some x /\ (8 <= List.length (content x))%nat /\ (clobber = true \/ time_of (firstn 4 (skipn 4 (content x))) < m)%Z) ->
  let s := gzip_copy time_of clobber p g m t f in snd s = Ok tt /\ exec (fst s) f p = Some (mkfile g (IZR m)) /\
  forall t' h, h p = Some (mkfile g (IZR m)) -> gzip_copy time_of false p g m t' h = ([], Ok tt).
Proof.
  intros time_of clobber p g m t f HT HG HM H. cbv zeta. unfold gzip_copy. assert (E : match f p with Some x => do h <- header_time (content x) time_of; Ok (m >? h)%Z | None => Ok true end = Ok true \/
    clobber = true /\ exists b, match f p with Some x => do h <- header_time (content x) time_of; Ok (m >? h)%Z | None => Ok true end = Ok b).
  { destruct H as [->|(x & -> & Hx & [->|Hm])]; [left; reflexivity|right; split; [reflexivity|]|left]; unfold header_time; replace (List.length (content x) <? 8)%nat with false by lia; cbn [bind]; [eexists; reflexivity|]. replace (m >? _)%Z with true by lia. reflexivity. }
  assert (Q : forall b, (b || clobber)%bool = true -> (if (b || clobber)%bool then copy_steps p (mkremote p g (Some (IZR m))) t else ([], Ok tt)) = copy_steps p (mkremote p g (Some (IZR m))) t) by (intros b ->; reflexivity).
  split; [|split].
  - destruct E as [->|(-> & b & ->)]; rewrite Q by (rewrite ?Bool.orb_true_r; reflexivity); reflexivity.
  - destruct E as [->|(-> & b & ->)]; rewrite Q by (rewrite ?Bool.orb_true_r; reflexivity); apply (copy_done p (mkremote p g (Some (IZR m))) t (IZR m) f eq_refl HT).
  - intros t' h Hh. rewrite Hh. cbn [content]. unfold header_time. replace (List.length g <? 8)%nat with false by lia. cbn [bind]. rewrite HM. replace (m >? m)%Z with false by lia. reflexivity.
Qed.
Print Assumptions C103_gzip.
(** an interrupted copy is never completed: with eight bytes or more its header already has the time of the member; with less every later run raises, also with CLOBBER *)
Theorem C103_gzip_crash_refuted : forall time_of p g m c u, (8 <= List.length g)%nat -> time_of (firstn 4 (skipn 4 g)) = m -> (exists rest, g = (c ++ rest)%list) ->
  (forall clobber t f, (List.length c < 8)%nat -> f p = Some (mkfile c u) -> exists e, gzip_copy time_of clobber p g m t f = ([], Err e)) /\
  (forall t f, (8 <= List.length c)%nat -> f p = Some (mkfile c u) -> gzip_copy time_of false p g m t f = ([], Ok tt)).
Proof.
  intros time_of p g m c u HG HM (rest & Er). split; [intros clobber t f H H0|intros t f H H0]; unfold gzip_copy; rewrite H0; cbn [content]; unfold header_time.
  - replace (List.length c <? 8)%nat with true by lia. cbn [bind]. eauto.
  - replace (List.length c <? 8)%nat with false by lia. cbn [bind].
    replace (firstn 4 (skipn 4 c)) with (firstn 4 (skipn 4 g)); [rewrite HM; replace (m >? m)%Z with false by lia; reflexivity|].
    rewrite Er, skipn_app. replace (4 - List.length c)%nat with 0%nat by lia. rewrite skipn_O, firstn_app, skipn_length. replace (4 - (List.length c - 4))%nat with 0%nat by lia. rewrite firstn_O, app_nil_r. reflexivity.
Qed.
Print Assumptions C103_gzip_crash_refuted.
(** the archive of a month is written once: days published later, or lost by an interruption, are not added by any later run without CLOBBER *)
Theorem C103_month_refuted : forall pack p rs rs' t t' f k, f p = None -> rs <> [] -> (k <= List.length (t_chunks t))%nat ->
  exists x, exec (firstn (S k) (aod_tar false pack p rs t f)) f p = Some x /\ content x = concat (map snd (firstn k (t_chunks t))) /\ forall g, g p = Some x -> aod_tar false pack p rs' t' g = [].
Proof.
  intros pack p rs rs' t t' f k E HR Hk. unfold aod_tar. rewrite E. destruct rs as [|r0 rs]; [contradiction|]. cbn [List.length Nat.ltb Nat.leb andb orb]. change (((p, Open (t_open t)) :: _)%list) with (arriving p t).
  replace (firstn (S k) (arriving p t)) with (arriving p (mktransfer (t_open t) (firstn k (t_chunks t)))) by (unfold arriving; cbn [firstn t_chunks t_open]; f_equal; symmetry; apply firstn_map).
  rewrite exec_arriving. eexists. split; [reflexivity|]. split; [reflexivity|]. intros g Hg. rewrite Hg. cbn [orb]. rewrite Bool.andb_false_r. reflexivity.
Qed.
Print Assumptions C103_month_refuted.
(** the archive of a month is written if a file of the month is there and there is no archive yet, or with CLOBBER; otherwise nothing is written *)
Theorem C103_month : forall clobber pack p rs t f, let s := aod_tar clobber pack p rs t f in
  (rs <> [] /\ (f p = None \/ clobber = true) -> (exists m, exec s f p = Some (mkfile (concat (map snd (t_chunks t))) m)) /\ forall q, q <> p -> exec s f q = f q) /\
  (rs = [] \/ (f p <> None /\ clobber = false) -> s = []).
Proof.
  intros clobber pack p rs t f. cbv zeta. unfold aod_tar. split.
  - intros [HR HC]. replace ((0 <? List.length rs)%nat && (match f p with Some _ => false | None => true end || clobber))%bool with true.
    + change (((p, Open (t_open t)) :: _)%list) with (arriving p t). split; [rewrite exec_arriving; eauto|]. intros q Hq. apply exec_other. intros x Hx. rewrite (arriving_path _ _ _ Hx). congruence.
    + symmetry. destruct rs; [contradiction|]. cbn [List.length Nat.ltb Nat.leb andb]. destruct HC as [-> | ->]; [reflexivity|apply Bool.orb_true_r].
  - intros [-> |[HF ->]]; [reflexivity|]. destruct (f p); [|contradiction]. cbn [orb]. rewrite Bool.andb_false_r. reflexivity.
Qed.
Print Assumptions C103_month.

(** concrete cases for C103: a listing of five names in pages of two; a compressed file of ten bytes, missing, outdated, complete and cut at nine bytes *)
Definition b9 (n : nat) : bytes := repeat b0 n.
Definition ex_time (b : bytes) : Z := Z.of_nat (List.length (filter (fun x => match x with Coq.Init.Byte.x61 => true | _ => false end) b)).
Example C103_example :
  esa_list (fun pos k => firstn k (skipn pos [1; 2; 3; 4; 5]%nat)) 3 0 2 [] = Some [1; 2; 3; 4; 5]%nat /\
  concat (map snd (t_chunks (mktransfer 10 [(11, b9 9); (12, b9 1)]))) = b9 10 /\ ex_time (firstn 4 (skipn 4 (b9 10))) = 4%Z /\
  fst (gzip_copy ex_time false "x.gz" (b9 10) 4 (mktransfer 10 [(11, b9 9); (12, b9 1)]) (fun _ => Some (mkfile (repeat Coq.Init.Byte.x62 10) 0))) <> [] /\
  gzip_copy ex_time false "x.gz" (b9 10) 4 (mktransfer 10 [(11, b9 9); (12, b9 1)]) (fun _ => Some (mkfile (b9 9) 0)) = ([], Ok tt) /\
  (exists e, gzip_copy ex_time true "x.gz" (b9 10) 4 (mktransfer 10 [(11, b9 9); (12, b9 1)]) (fun _ => Some (mkfile (b9 7) 0)) = ([], Err e)).
Proof. repeat split; try reflexivity; [intros E; discriminate E|eexists; reflexivity]. Qed.
