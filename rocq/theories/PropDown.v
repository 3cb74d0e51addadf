(** C137: product downloads (model: DownModel.v). *)
From Coq Require Import Reals Lra Lia String Ascii.
From Verif Require Import Base SyncModel DownModel PropSync.
Close Scope Z_scope.
Close Scope R_scope.
Open Scope string_scope.

(** ** Specification *)
(** the files of CSR: where they are on the server and where they go; the level-2 files are those of the directories of years whose names contain the product *)
Inductive csr_file (directory version : string) (vs : list string) (ls : url -> list string) : url -> string -> Prop :=
| csr_slr d n : In "SLR" vs ->
    In (d, n) [("degree_5", "CSR_Monthly_5x5_Gravity_Harmonics.txt"); ("degree_2", "C20_RL06.txt"); ("degree_2", "C21_S21_RL06.txt"); ("degree_2", "C22_S22_RL06.txt"); ("TN11E", "TN11E.txt")] ->
    csr_file directory version vs ls ["http://download.csr.utexas.edu"; "pub"; "slr"; d; n] (directory ++ "/" ++ n)
| csr_geocenter1 : In "geocenter" vs -> csr_file directory version vs ls ["http://download.csr.utexas.edu"; "pub"; "slr"; "geocenter"; "GCN_L1_L2_30d_CF-CM.txt"] (directory ++ "/geocenter/GCN_L1_L2_30d_CF-CM.txt")
| csr_geocenter2 : In "geocenter" vs -> csr_file directory version vs ls ["http://download.csr.utexas.edu"; "outgoing"; "cheng"; "gct2est.220_5s"] (directory ++ "/geocenter/gct2est.220_5s")
| csr_lri prod year fi : In "LRI" vs -> In prod ["GAC"; "GAD"; "GSM"] ->
    In year (ls ["http://download.csr.utexas.edu"; "outgoing"; "gracefo"; version]) ->
    (exists a b c d x y, year = a ++ String b (String c (String d (String x y))) /\ digit b = true /\ digit c = true /\ digit d = true /\ digit x = true) ->
    In fi (ls ["http://download.csr.utexas.edu"; "outgoing"; "gracefo"; version; year]) -> (exists a b, fi = a ++ prod ++ b) ->
    csr_file directory version vs ls ["http://download.csr.utexas.edu"; "outgoing"; "gracefo"; version; year; fi] (directory ++ "/CSR/" ++ version ++ "/" ++ prod ++ "/" ++ fi).
(** the server has the file, the transfer delivers it, and no local file with other contents has its hash *)
Definition available (hash : bytes -> string) (server : url -> option bytes) (tr : url -> transfer) (f : fs) (u : url) (p : string) : Prop :=
  exists data, server u = Some data /\ concat (map snd (t_chunks (tr u))) = data /\ forall x, f p = Some x -> hash (content x) = hash data -> content x = data.
Definition in_place (server : url -> option bytes) (u : url) (x : option file) : Prop := exists y, x = Some y /\ server u = Some (content y).
(** ** Strings *)
Lemma app_s_assoc : forall a b c : string, (a ++ b) ++ c = a ++ b ++ c.
Proof. induction a as [|x a IH]; intros b c; [reflexivity|]. cbn. rewrite IH. reflexivity. Qed.
Lemma prefix_app : forall p f, String.prefix p f = true <-> exists b, f = p ++ b.
Proof.
  induction p as [|a p IH]; intros f; [split; [intros _; exists f; reflexivity|intros _; destruct f; reflexivity]|]. destruct f as [|b f]; cbn [String.prefix].
  - split; [discriminate|]. intros (b & E). discriminate E.
  - destruct (ascii_dec a b) as [->|N].
    + rewrite IH. split; intros (c & E); exists c; [rewrite E; reflexivity|]. cbn in E. injection E as E. exact E.
    + split; [discriminate|]. intros (c & E). cbn in E. injection E as E _. congruence.
Qed.
Lemma contains_spec : forall p f, p <> "" -> (contains p f = true <-> exists a b, f = a ++ p ++ b).
Proof.
  intros p f Hp. unfold contains. revert f. induction f as [|c f IH].
  - cbn [String.index]. destruct p as [|x p]; [congruence|]. split; [discriminate|]. intros (a & b & E). destruct a; discriminate E.
  - cbn [String.index]. destruct (String.prefix p (String c f)) eqn:P.
    + split; [|reflexivity]. intros _. apply prefix_app in P. destruct P as (b & E). exists "", b. exact E.
    + transitivity (exists a b, f = a ++ p ++ b).
      * rewrite <- IH. destruct (String.index 0 p f); [split; reflexivity|split; discriminate].
      * split; intros (a & b & E); [exists (String c a), b; rewrite E; reflexivity|]. destruct a as [|x a].
        -- cbn [append] in E. assert (K : String.prefix p (String c f) = true) by (apply prefix_app; exists b; exact E). congruence.
        -- cbn [append] in E. injection E as _ E. exists a, b. exact E.
Qed.
Lemma year_like_spec : forall f, year_like f = true <-> exists a b c d x y, f = a ++ String b (String c (String d (String x y))) /\ digit b = true /\ digit c = true /\ digit d = true /\ digit x = true.
Proof.
  induction f as [|s f IH].
  - split; [discriminate|]. intros (a & b & c & d & x & y & E & _). destruct a; discriminate E.
  - cbn [year_like]. rewrite Bool.orb_true_iff, IH, Bool.andb_true_iff. split.
    + intros [[D H]|(a & b & c & d & x & y & E & H)].
      * destruct f as [|c [|d [|x y]]]; try discriminate H. apply Bool.andb_true_iff in H. destruct H as [H H3]. apply Bool.andb_true_iff in H. destruct H as [H1 H2]. exists "", s, c, d, x, y. auto.
      * exists (String s a), b, c, d, x, y. rewrite E. auto.
    + intros (a & b & c & d & x & y & E & H1 & H2 & H3 & H4). destruct a as [|k a].
      * cbn [append] in E. injection E as -> ->. left. rewrite H1, H2, H3, H4. auto.
      * cbn [append] in E. injection E as -> ->. right. exists a, b, c, d, x, y. auto.
Qed.
Lemma has_spec s l : has s l = true <-> In s l.
Proof. unfold has. rewrite existsb_exists. split; [intros (x & H & E); apply String.eqb_eq in E; subst; exact H|intros H; exists s; split; [exact H|apply String.eqb_refl]]. Qed.

(** ** The loop *)
Section Loop.
Context (hash : bytes -> string) (server : url -> option bytes) (HN : forall b, hash b <> "").
Definition usable (f : fs) (x : item) : Prop :=
  exists data, server (i_url x) = Some data /\ concat (map snd (t_chunks (i_transfer x))) = data /\ forall y, f (i_path x) = Some y -> hash (content y) = hash data -> content y = data.
Lemma get_path x f o : In o (fst (get_item hash server x f)) -> fst o = i_path x.
Proof using.
  unfold get_item. destruct (server (i_url x)) as [data|]; [|intros []]. destruct (i_proto x) as [|m]; cbn [fst].
  - unfold from_http. destruct (String.eqb _ _); [intros []|]. apply arriving_path.
  - unfold from_ftp. destruct (String.eqb _ _); [intros []|]. apply copy_path.
Qed.
Lemma get_other x f p : p <> i_path x -> exec (fst (get_item hash server x f)) f p = f p.
Proof using. intros H. apply exec_other. intros o Ho. rewrite (get_path _ _ _ Ho). congruence. Qed.
Lemma get_present x f data : server (i_url x) = Some data -> (exists y, f (i_path x) = Some y /\ content y = data) -> get_item hash server x f = ([], Ok tt).
Proof using.
  intros HS (y & E & C). unfold get_item. rewrite HS. unfold from_http, from_ftp, get_hash. rewrite E, C, String.eqb_refl. destruct (i_proto x); reflexivity.
Qed.
Lemma get_ok x f : usable f x -> snd (get_item hash server x f) = Ok tt /\ exists y, exec (fst (get_item hash server x f)) f (i_path x) = Some y /\ server (i_url x) = Some (content y) /\
  (f (i_path x) = None -> forall m, i_proto x = Ftp m -> mtime y = m).
Proof.
  intros (data & HS & HT & HC). unfold get_item. rewrite HS. destruct (i_proto x) as [|m] eqn:HP.
  - cbn [fst snd]. split; [reflexivity|]. destruct (C102_from_http hash (i_path x) data (i_transfer x) f HN HT HC) as (_ & (m & E) & _). eexists. split; [exact E|]. split; [reflexivity|]. discriminate.
  - cbn [fst snd]. destruct (string_dec (get_hash hash f (i_path x)) (hash data)) as [E|N].
    + unfold from_ftp. rewrite E, String.eqb_refl. cbn [fst snd bind]. split; [reflexivity|]. unfold get_hash in E. destruct (f (i_path x)) as [y|] eqn:F; [|exfalso; apply (HN data); symmetry; exact E].
      exists y. cbn. split; [exact F|]. split; [f_equal; symmetry; apply HC; [reflexivity|exact E]|discriminate].
    + destruct (C102_from_ftp hash (i_path x) data m (i_transfer x) f HT N) as (A & B & _). rewrite A. cbn [bind]. split; [reflexivity|]. eexists. split; [exact B|]. split; [reflexivity|]. intros _ m' E. injection E as <-. reflexivity.
Qed.
Lemma fetch_path : forall l f o, In o (fst (fetch hash server l f)) -> exists x, In x l /\ fst o = i_path x.
Proof using.
  induction l as [|x l IH]; intros f o H; [destruct H|]. cbn [fetch] in H. destruct (snd (get_item hash server x f)).
  - cbn [fst] in H. apply in_app_iff in H. destruct H as [H|H]; [exists x; split; [left; reflexivity|eapply get_path; exact H]|]. destruct (IH _ _ H) as (y & Hy & E). exists y. split; [right; exact Hy|exact E].
  - exists x. split; [left; reflexivity|eapply get_path; exact H].
Qed.
Lemma fetch_other l f p : (forall x, In x l -> i_path x <> p) -> exec (fst (fetch hash server l f)) f p = f p.
Proof using. intros H. apply exec_other. intros o Ho E. destruct (fetch_path _ _ _ Ho) as (x & Hx & Ex). apply (H x Hx). congruence. Qed.
Definition agree (l : list item) : Prop := forall x y, In x l -> In y l -> i_path x = i_path y -> server (i_url x) = server (i_url y).
Lemma fetch_ok : forall l f, (forall x, In x l -> usable f x) -> agree l ->
  snd (fetch hash server l f) = Ok tt /\ forall x, In x l -> exists y, exec (fst (fetch hash server l f)) f (i_path x) = Some y /\ server (i_url x) = Some (content y).
Proof.
  induction l as [|x l IH]; intros f U A; [split; [reflexivity|intros x []]|]. cbn [fetch]. destruct (get_ok x f (U x (or_introl eq_refl))) as (-> & y & E & HS & _). cbn [fst snd].
  set (g := exec (fst (get_item hash server x f)) f) in *.
  assert (U' : forall z, In z l -> usable g z).
  { intros z Hz. destruct (U z (or_intror Hz)) as (data & S1 & S2 & S3). exists data. split; [exact S1|]. split; [exact S2|]. intros w F K. destruct (string_dec (i_path z) (i_path x)) as [P|P].
    - rewrite P, E in F. injection F as <-. pose proof (A x z (or_introl eq_refl) (or_intror Hz) (eq_sym P)) as Q0. rewrite HS, S1 in Q0. injection Q0 as ->. reflexivity.
    - unfold g in F. rewrite get_other in F by exact P. apply S3; assumption. }
  assert (A' : agree l) by (intros a b Ha Hb; apply A; right; assumption).
  destruct (IH g U' A') as (Q1 & Q2). split; [exact Q1|]. intros z Hz. rewrite exec_app. fold g.
  destruct (in_dec string_dec (i_path z) (map i_path l)) as [M|M].
  - apply in_map_iff in M. destruct M as (w & Ew & Hw). destruct (Q2 w Hw) as (v & F & V). rewrite <- Ew. exists v. split; [exact F|]. rewrite <- V. apply A; [exact Hz|right; exact Hw|symmetry; exact Ew].
  - rewrite fetch_other by (intros w Hw Ew; apply M; rewrite <- Ew; apply in_map; exact Hw). destruct Hz as [<-|Hz]; [exists y; auto|]. destruct M. apply in_map. exact Hz.
Qed.
Lemma fetch_present : forall l f, (forall x, In x l -> exists y, f (i_path x) = Some y /\ server (i_url x) = Some (content y)) -> fetch hash server l f = ([], Ok tt).
Proof using.
  induction l as [|x l IH]; intros f H; [reflexivity|]. cbn [fetch]. destruct (H x (or_introl eq_refl)) as (y & E & S1). rewrite (get_present x f (content y) S1) by eauto. cbn [fst snd]. cbn [exec fold_left].
  rewrite IH by (intros z Hz; apply H; right; exact Hz). reflexivity.
Qed.
(** the first file that cannot be had ends the program: what is before it is there, what is after it is not asked for *)
Lemma fetch_stop : forall l1 x l2 f, (forall z, In z l1 -> usable f z) -> agree l1 -> server (i_url x) = None -> fetch hash server (l1 ++ x :: l2)%list f = (fst (fetch hash server l1 f), Err OtherExn).
Proof.
  induction l1 as [|z l1 IH]; intros x l2 f U A HS; [cbn [app fetch]; unfold get_item; rewrite HS; reflexivity|]. cbn [app fetch]. destruct (get_ok z f (U z (or_introl eq_refl))) as (-> & y & E & HZ & _). cbn [fst snd].
  rewrite IH; [reflexivity| |intros a b Ha Hb; apply A; right; assumption|exact HS].
  intros w Hw. destruct (U w (or_intror Hw)) as (data & S1 & S2 & S3). exists data. split; [exact S1|]. split; [exact S2|]. intros v F K. destruct (string_dec (i_path w) (i_path z)) as [P|P].
  - rewrite P, E in F. injection F as <-. pose proof (A z w (or_introl eq_refl) (or_intror Hw) (eq_sym P)) as Q0. rewrite HZ, S1 in Q0. injection Q0 as ->. reflexivity.
  - rewrite get_other in F by exact P. apply S3; assumption.
Qed.
End Loop.

(** ** from_csr *)
Lemma csr_in directory version vs ls tr : 
  (forall x, In x (csr_items ls directory version vs tr) -> i_proto x = Http /\ i_transfer x = tr (i_url x) /\ csr_file directory version vs ls (i_url x) (i_path x)) /\
  forall u p, csr_file directory version vs ls u p -> exists x, In x (csr_items ls directory version vs tr) /\ i_url x = u /\ i_path x = p.
Proof.
  split.
  - intros x H. unfold csr_items in H. apply in_app_iff in H. destruct H as [H|H]; [|apply in_app_iff in H; destruct H as [H|H]].
    + destruct (has "SLR" vs) eqn:B; [|destruct H]. apply has_spec in B. apply in_map_iff in H. destruct H as (u & <- & Hu). cbn [i_proto i_transfer i_url i_path]. do 2 (split; [reflexivity|]).
      cbn in Hu. destruct Hu as [<-|[<-|[<-|[<-|[<-|[]]]]]]; apply csr_slr; cbn; auto 10.
    + destruct (has "geocenter" vs) eqn:B; [|destruct H]. apply has_spec in B. apply in_map_iff in H. destruct H as (u & <- & Hu). cbn [i_proto i_transfer i_url i_path]. do 2 (split; [reflexivity|]).
      unfold join. rewrite !app_s_assoc. cbn in Hu. destruct Hu as [<-|[<-|[]]]; [apply csr_geocenter1; exact B|apply csr_geocenter2; exact B].
    + destruct (has "LRI" vs) eqn:B; [|destruct H]. apply has_spec in B. apply in_map_iff in H. destruct H as ([[prod year] fi] & <- & Hu). cbn [i_proto i_transfer i_url i_path fst snd]. do 2 (split; [reflexivity|]).
      unfold lri in Hu. apply in_flat_map in Hu. destruct Hu as (q & Hq & Hu). apply in_flat_map in Hu. destruct Hu as (y & Hy & Hu). apply in_map_iff in Hu. destruct Hu as (g & E & Hg). injection E as -> -> ->.
      apply filter_In in Hy, Hg. destruct Hy as [Hy1 Hy2], Hg as [Hg1 Hg2]. apply year_like_spec in Hy2. apply contains_spec in Hg2; [|intros ->; cbn in Hq; intuition discriminate].
      unfold join. rewrite !app_s_assoc. apply csr_lri; assumption.
  - intros u p H. destruct H as [d n B H|B|B|prod year fi B Hp Hy Y Hf F].
    + eexists (mkitem [HOST; "pub"; "slr"; d; n] (join directory n) Http (tr _)). split; [|split; reflexivity]. unfold csr_items. apply in_app_iff. left. rewrite (proj2 (has_spec _ _) B). apply in_map_iff.
      exists [HOST; "pub"; "slr"; d; n]. split; [reflexivity|]. cbn in H. destruct H as [E|[E|[E|[E|[E|[]]]]]]; injection E as <- <-; unfold slr_urls; cbn [In]; auto 10.
    + eexists (mkitem [HOST; "pub"; "slr"; "geocenter"; "GCN_L1_L2_30d_CF-CM.txt"] _ Http (tr _)). split; [|split; [reflexivity|reflexivity]]. unfold csr_items. apply in_app_iff. right. apply in_app_iff. left.
      rewrite (proj2 (has_spec _ _) B). unfold geocenter_urls. cbn [map In base List.last]. left. unfold join. rewrite app_s_assoc. reflexivity.
    + eexists (mkitem [HOST; "outgoing"; "cheng"; "gct2est.220_5s"] _ Http (tr _)). split; [|split; [reflexivity|reflexivity]]. unfold csr_items. apply in_app_iff. right. apply in_app_iff. left.
      rewrite (proj2 (has_spec _ _) B). unfold geocenter_urls. cbn [map In base List.last]. right. left. unfold join. rewrite app_s_assoc. reflexivity.
    + eexists (mkitem [HOST; "outgoing"; "gracefo"; version; year; fi] _ Http (tr _)). split; [|split; reflexivity]. unfold csr_items. apply in_app_iff. right. apply in_app_iff. right.
      rewrite (proj2 (has_spec _ _) B). apply in_map_iff. exists (prod, year, fi). split; [cbn [fst snd remote_path app]; unfold join; rewrite !app_s_assoc; reflexivity|].
      unfold lri. apply in_flat_map. exists prod. split; [exact Hp|]. apply in_flat_map. exists year. split; [apply filter_In; split; [exact Hy|apply year_like_spec; exact Y]|].
      apply in_map. apply filter_In. split; [exact Hf|]. apply contains_spec; [intros ->; cbn in Hp; intuition discriminate|exact F].
Qed.
(** a complete run: every wanted file is in place, whatever was there before (also after an interrupted run), nothing else changes, and a second run, however its transfers would go, writes nothing *)
Theorem C137_csr : forall hash server ls directory version v vs tr f, (forall b, hash b <> "") -> names_of v = Ok vs ->
  (forall u p, csr_file directory version vs ls u p -> available hash server tr f u p) ->
  (forall u u' p, csr_file directory version vs ls u p -> csr_file directory version vs ls u' p -> server u = server u') ->
  let s := from_csr hash server ls directory version v tr f in
  snd s = Ok tt /\ (forall u p, csr_file directory version vs ls u p -> in_place server u (exec (fst s) f p)) /\
  (forall p, (forall u, ~ csr_file directory version vs ls u p) -> exec (fst s) f p = f p) /\
  forall tr', from_csr hash server ls directory version v tr' (exec (fst s) f) = ([], Ok tt).
Proof.
  intros hash server ls directory version v vs tr f HN HV AV AG. cbv zeta. unfold from_csr. rewrite HV. destruct (csr_in directory version vs ls tr) as (I1 & I2).
  assert (U : forall x, In x (csr_items ls directory version vs tr) -> usable hash server f x).
  { intros x Hx. destruct (I1 x Hx) as (_ & T & C). destruct (AV _ _ C) as (data & A & B & D). exists data. rewrite T. auto. }
  assert (A : agree server (csr_items ls directory version vs tr)).
  { intros x y Hx Hy E. destruct (I1 x Hx) as (_ & _ & C1), (I1 y Hy) as (_ & _ & C2). apply (AG _ _ (i_path x)); [exact C1|rewrite E; exact C2]. }
  destruct (fetch_ok hash server HN _ f U A) as (Q1 & Q2). split; [exact Q1|].
  assert (PL : forall u p, csr_file directory version vs ls u p -> in_place server u (exec (fst (fetch hash server (csr_items ls directory version vs tr) f)) f p)).
  { intros u p C. destruct (I2 u p C) as (x & Hx & Eu & Ep). destruct (Q2 x Hx) as (y & E & S1). rewrite <- Ep, <- Eu. exists y. auto. }
  split; [exact PL|]. split.
  - intros p NP. apply fetch_other. intros x Hx E. destruct (I1 x Hx) as (_ & _ & C). apply (NP (i_url x)). rewrite <- E. exact C.
  - intros tr'. apply fetch_present. intros x Hx. destruct (csr_in directory version vs ls tr') as (J1 & _). destruct (J1 x Hx) as (_ & _ & C). destruct (PL _ _ C) as (y & E & S1). eauto.
Qed.
Print Assumptions C137_csr.
(** an interrupted run touches only the local files of the product *)
Theorem C137_csr_interrupted : forall hash server ls directory version v vs tr f k p, names_of v = Ok vs -> (forall u, ~ csr_file directory version vs ls u p) ->
  exec (firstn k (fst (from_csr hash server ls directory version v tr f))) f p = f p.
Proof.
  intros hash server ls directory version v vs tr f k p HV NP. unfold from_csr. rewrite HV. apply exec_other. intros o Ho E.
  assert (Ho' : In o (fst (fetch hash server (csr_items ls directory version vs tr) f))) by (rewrite <- (firstn_skipn k (fst (fetch _ _ _ _))); apply in_app_iff; left; exact Ho).
  destruct (fetch_path _ _ _ _ _ Ho') as (x & Hx & Ex). destruct (csr_in directory version vs ls tr) as (I1 & _). destruct (I1 x Hx) as (_ & _ & C). apply (NP (i_url x)). rewrite <- E, Ex. exact C.
Qed.
Print Assumptions C137_csr_interrupted.
(** the default of the argument is not usable, and a name that is not a product is ignored *)
Theorem C137_csr_default_refuted : forall hash server ls directory version tr f, from_csr hash server ls directory version VNone tr f = ([], Err TypeError).
Proof. reflexivity. Qed.
Print Assumptions C137_csr_default_refuted.
Theorem C137_csr_unknown : forall hash server ls directory version v vs tr f, names_of v = Ok vs -> ~ In "SLR" vs -> ~ In "geocenter" vs -> ~ In "LRI" vs -> from_csr hash server ls directory version v tr f = ([], Ok tt).
Proof.
  intros hash server ls directory version v vs tr f HV N1 N2 N3. unfold from_csr. rewrite HV. unfold csr_items. rewrite <- has_spec in N1, N2, N3.
  destruct (has "SLR" vs); [congruence|]. destruct (has "geocenter" vs); [congruence|]. destruct (has "LRI" vs); [congruence|]. reflexivity.
Qed.
Print Assumptions C137_csr_unknown.
(** a missing file ends the program: the five SLR files come in a fixed order, those before it are in place and nothing else changes *)
Theorem C137_csr_missing : forall hash server ls directory version vs tr f k u, (forall b, hash b <> "") -> In "SLR" vs ->
  nth_error [["http://download.csr.utexas.edu"; "pub"; "slr"; "degree_5"; "CSR_Monthly_5x5_Gravity_Harmonics.txt"]; ["http://download.csr.utexas.edu"; "pub"; "slr"; "degree_2"; "C20_RL06.txt"];
             ["http://download.csr.utexas.edu"; "pub"; "slr"; "degree_2"; "C21_S21_RL06.txt"]; ["http://download.csr.utexas.edu"; "pub"; "slr"; "degree_2"; "C22_S22_RL06.txt"];
             ["http://download.csr.utexas.edu"; "pub"; "slr"; "TN11E"; "TN11E.txt"]] k = Some u -> server u = None ->
  (forall w, In w (firstn k slr_urls) -> available hash server tr f w (directory ++ "/" ++ base w)) ->
  let s := from_csr hash server ls directory version (VList vs) tr f in snd s = Err OtherExn /\
  (forall w, In w (firstn k slr_urls) -> in_place server w (exec (fst s) f (directory ++ "/" ++ base w))) /\
  forall p, (forall w, In w (firstn k slr_urls) -> p <> directory ++ "/" ++ base w) -> exec (fst s) f p = f p.
Proof.
  intros hash server ls directory version vs tr f k u HN HI HK HS HA. cbv zeta. unfold from_csr. cbn [names_of]. unfold csr_items. rewrite (proj2 (has_spec _ _) HI).
  change (nth_error slr_urls k = Some u) in HK. destruct (nth_error_split _ _ HK) as (l1 & l2 & E & L). set (mk := fun w : url => mkitem w (join directory (base w)) Http (tr w)).
  assert (F1 : firstn k slr_urls = l1) by (rewrite E, <- L, firstn_app, firstn_all, Nat.sub_diag, app_nil_r; reflexivity). rewrite F1 in *.
  assert (EQ : map mk slr_urls = (map mk l1 ++ mk u :: map mk l2)%list) by (rewrite E, map_app; reflexivity). rewrite EQ. rewrite <- app_assoc. cbn [app].
  assert (IJ : forall w w', In w slr_urls -> In w' slr_urls -> join directory (base w) = join directory (base w') -> w = w').
  { intros w w' H H' K. assert (B : base w = base w') by (unfold join in K; clear -K; induction directory as [|c d IH]; cbn in K; [injection K as K; exact K|injection K as K; exact (IH K)]). clear K.
    cbn in H, H'. destruct H as [<-|[<-|[<-|[<-|[<-|[]]]]]], H' as [<-|[<-|[<-|[<-|[<-|[]]]]]]; try reflexivity; vm_compute in B; discriminate B. }
  assert (SUB : forall w, In w l1 -> In w slr_urls) by (intros w Hw; rewrite E; apply in_app_iff; left; exact Hw).
  assert (U : forall x, In x (map mk l1) -> usable hash server f x) by (intros x Hx; apply in_map_iff in Hx; destruct Hx as (w & <- & Hw); exact (HA w Hw)).
  assert (A : agree server (map mk l1)).
  { intros x y Hx Hy Exy. apply in_map_iff in Hx, Hy. destruct Hx as (w & <- & Hw), Hy as (w' & <- & Hw'). cbn [i_url i_path mk] in *. f_equal. apply IJ; auto. }
  rewrite (fetch_stop hash server HN (map mk l1) (mk u) _ f U A HS). cbn [fst snd]. destruct (fetch_ok hash server HN _ f U A) as (_ & Q2). split; [reflexivity|]. split.
  - intros w Hw. destruct (Q2 (mk w) (in_map mk _ _ Hw)) as (y & Ey & Sy). exists y. split; [exact Ey|exact Sy].
  - intros p NP. apply fetch_other. intros x Hx K. apply in_map_iff in Hx. destruct Hx as (w & <- & Hw). apply (NP w Hw). symmetry. exact K.
Qed.
Print Assumptions C137_csr_missing.
(** the level-2 files go to the directory of the product, without the year: two files of one name in two years share their local place.  The last one stays, and every run writes both again *)
Theorem C137_csr_years_refuted : forall hash d1 d2 tr tr', (forall b, hash b <> "") -> hash d1 <> hash d2 -> 
  let server := fun u : url => if String.eqb (nth 4 u "") "2019" then Some d1 else Some d2 in
  let ls := fun u : url => match u with [_; _; _; _] => ["2019"; "2020"] | _ => ["GSM-2_LRI"] end in
  let u := fun y => ["http://download.csr.utexas.edu"; "outgoing"; "gracefo"; "RL06.1LRI"; y; "GSM-2_LRI"] in let p := "/data/CSR/RL06.1LRI/GSM/GSM-2_LRI" in
  concat (map snd (t_chunks (tr (u "2019")))) = d1 -> concat (map snd (t_chunks (tr (u "2020")))) = d2 ->
  csr_file "/data" "RL06.1LRI" ["LRI"] ls (u "2019") p /\ csr_file "/data" "RL06.1LRI" ["LRI"] ls (u "2020") p /\
  let s := from_csr hash server ls "/data" "RL06.1LRI" (VStr "LRI") tr (fun _ => None) in
  snd s = Ok tt /\ (exists m, exec (fst s) (fun _ => None) p = Some (mkfile d2 m)) /\ fst (from_csr hash server ls "/data" "RL06.1LRI" (VStr "LRI") tr' (exec (fst s) (fun _ => None))) <> [].
Proof.
  intros hash d1 d2 tr tr' HN HD server ls u p T1 T2.
  assert (C : forall y, y = "2019" \/ y = "2020" -> csr_file "/data" "RL06.1LRI" ["LRI"] ls (u y) p).
  { intros y Hy. apply (csr_lri "/data" "RL06.1LRI" ["LRI"] ls "GSM" y "GSM-2_LRI"); [left; reflexivity|cbn; auto|destruct Hy as [->| ->]; cbn; auto| |left; reflexivity|exists "", "-2_LRI"; reflexivity].
    destruct Hy as [->| ->]; [exists "", "2"%char, "0"%char, "1"%char, "9"%char, ""|exists "", "2"%char, "0"%char, "2"%char, "0"%char, ""]; repeat split. }
  split; [apply C; auto|]. split; [apply C; auto|]. cbv zeta.
  assert (IT : forall t, csr_items ls "/data" "RL06.1LRI" ["LRI"] t = [mkitem (u "2019") p Http (t (u "2019")); mkitem (u "2020") p Http (t (u "2020"))]) by reflexivity.
  unfold from_csr. cbn [names_of]. rewrite !IT. cbn [fetch]. set (x1 := mkitem (u "2019") p Http (tr (u "2019"))). set (x2 := mkitem (u "2020") p Http (tr (u "2020"))).
  assert (U1 : usable hash server (fun _ => None) x1) by (exists d1; split; [reflexivity|]; split; [exact T1|discriminate]).
  destruct (get_ok hash server HN x1 _ U1) as (-> & y1 & E1 & S1 & _). cbn [fst snd]. set (g := exec (fst (get_item hash server x1 (fun _ => None))) (fun _ => None)) in *.
  assert (Y1 : content y1 = d1) by (cbn in S1; congruence).
  assert (U2 : usable hash server g x2).
  { exists d2. split; [reflexivity|]. split; [exact T2|]. intros y F K. cbn [i_path x2] in F. cbn [i_path x1] in E1. rewrite E1 in F. injection F as <-. congruence. }
  destruct (get_ok hash server HN x2 _ U2) as (-> & y2 & E2 & S2 & _). cbn [fst snd]. assert (Y2 : content y2 = d2) by (cbn in S2; congruence). rewrite app_nil_r.
  split; [reflexivity|]. rewrite exec_app. fold g. cbn [i_path x2] in E2. split; [exists (mtime y2); rewrite E2, <- Y2; destruct y2; reflexivity|].
  set (h := exec (fst (get_item hash server x2 g)) g) in *. clearbody h.
  assert (G : get_item hash server (mkitem (u "2019") p Http (tr' (u "2019"))) h = (arriving p (tr' (u "2019")), Ok tt)).
  { unfold get_item. cbn [i_url i_proto i_path i_transfer]. change (server (u "2019")) with (Some d1). unfold from_http, get_hash. rewrite E2. apply not_eq_sym in HD. apply String.eqb_neq in HD. rewrite Y2, HD. reflexivity. }
  rewrite G. cbn. discriminate.
Qed.
Print Assumptions C137_csr_years_refuted.

(** ** from_gfz *)
Inductive gfz_file (directory : string) : url -> string -> Prop :=
| gfz_c20 : gfz_file directory ["isdcftp.gfz-potsdam.de"; "grace"; "Level-2"; "GFZ"; "RL06_SLR_C20"; "GFZ_RL06_C20_SLR.dat"] (directory ++ "/GFZ_RL06_C20_SLR.dat")
| gfz_low : gfz_file directory ["isdcftp.gfz-potsdam.de"; "grace"; "GravIS"; "GFZ"; "Level-2B"; "aux_data"; "GRAVIS-2B_GFZOP_GRACE+SLR_LOW_DEGREES_0003.dat"] (directory ++ "/GRAVIS-2B_GFZOP_GRACE+SLR_LOW_DEGREES_0003.dat")
| gfz_geo : gfz_file directory ["isdcftp.gfz-potsdam.de"; "grace"; "GravIS"; "GFZ"; "Level-2B"; "aux_data"; "GRAVIS-2B_GFZOP_GEOCENTER_0003.dat"] (directory ++ "/geocenter/GRAVIS-2B_GFZOP_GEOCENTER_0003.dat").
Lemma append_inj : forall a b c : string, a ++ b = a ++ c -> b = c.
Proof. induction a as [|x a IH]; intros b c H; [exact H|]. cbn in H. injection H as H. exact (IH _ _ H). Qed.
Lemma gfz_in directory mt tr :
  (forall x, In x (gfz_items directory mt tr) -> i_proto x = Ftp (mt (i_url x)) /\ i_transfer x = tr (i_url x) /\ gfz_file directory (i_url x) (i_path x)) /\
  forall u p, gfz_file directory u p -> exists x, In x (gfz_items directory mt tr) /\ i_url x = u /\ i_path x = p.
Proof.
  unfold gfz_items, gfz_slr, join. cbn [map app base List.last]. split.
  - intros x [<-|[<-|[<-|[]]]]; cbn [i_url i_path i_proto i_transfer]; (do 2 (split; [reflexivity|])); rewrite ?app_s_assoc; [apply gfz_c20|apply gfz_low|apply gfz_geo].
  - intros u p []; eexists; (split; [cbn [In]|]); [left; reflexivity| |right; left; reflexivity| |right; right; left; reflexivity|]; (split; [reflexivity|]); cbn [i_path]; rewrite ?app_s_assoc; reflexivity.
Qed.
Lemma gfz_fun directory u u' p p' : gfz_file directory u p -> gfz_file directory u' p' -> p = p' -> u = u'.
Proof. intros [] [] E; try reflexivity; apply append_inj in E; discriminate E. Qed.
Theorem C137_gfz : forall hash server directory mt tr f, (forall b, hash b <> "") -> (forall u p, gfz_file directory u p -> available hash server tr f u p) ->
  let s := from_gfz hash server directory mt tr f in
  snd s = Ok tt /\ (forall u p, gfz_file directory u p -> in_place server u (exec (fst s) f p)) /\
  (forall u p, gfz_file directory u p -> f p = None -> exists y, exec (fst s) f p = Some y /\ mtime y = mt u) /\
  (forall p, (forall u, ~ gfz_file directory u p) -> exec (fst s) f p = f p) /\
  forall mt' tr', from_gfz hash server directory mt' tr' (exec (fst s) f) = ([], Ok tt).
Proof.
  intros hash server directory mt tr f HN AV. cbv zeta. unfold from_gfz. destruct (gfz_in directory mt tr) as (I1 & I2).
  assert (U : forall x, In x (gfz_items directory mt tr) -> usable hash server f x).
  { intros x Hx. destruct (I1 x Hx) as (_ & T & C). destruct (AV _ _ C) as (data & A & B & D). exists data. rewrite T. auto. }
  assert (A : agree server (gfz_items directory mt tr)).
  { intros x y Hx Hy E. destruct (I1 x Hx) as (_ & _ & C1), (I1 y Hy) as (_ & _ & C2). f_equal. exact (gfz_fun _ _ _ _ _ C1 C2 E). }
  destruct (fetch_ok hash server HN _ f U A) as (Q1 & Q2). split; [exact Q1|].
  assert (PL : forall u p, gfz_file directory u p -> in_place server u (exec (fst (fetch hash server (gfz_items directory mt tr) f)) f p)).
  { intros u p C. destruct (I2 u p C) as (x & Hx & Eu & Ep). destruct (Q2 x Hx) as (y & E & S1). rewrite <- Ep, <- Eu. exists y. auto. }
  split; [exact PL|]. split; [|split].
  - assert (ND : NoDup (map i_path (gfz_items directory mt tr))).
    { unfold gfz_items, gfz_slr, join. cbn [map app base List.last i_path]. rewrite ?app_s_assoc.
      assert (D : forall a b : string, a <> b -> directory ++ a <> directory ++ b) by (intros a b N K; apply append_inj in K; contradiction).
      constructor; [intros [K|[K|[]]]; revert K; apply D; discriminate|]. constructor; [intros [K|[]]; revert K; apply D; discriminate|]. constructor; [intros []|constructor]. }
    intros u p C F. destruct (I2 u p C) as (x & Hx & Eu & Ep). destruct (I1 x Hx) as (P & _ & _). subst u p. clear -HN U A ND Hx P F. revert f U F ND. induction (gfz_items directory mt tr) as [|z l IH]; intros f U F ND; [destruct Hx|].
    inversion ND as [|a b NI ND']; subst. cbn [fetch]. destruct (get_ok hash server HN z f (U z (or_introl eq_refl))) as (-> & y & E & HS & M). cbn [fst snd]. rewrite exec_app. destruct Hx as [->|Hx].
    + rewrite fetch_other by (intros w Hw K; apply NI; rewrite <- K; apply in_map; exact Hw). exists y. split; [exact E|]. exact (M F _ P).
    + assert (N : forall w, In w l -> i_path w <> i_path z) by (intros w Hw K; apply NI; rewrite <- K; apply in_map; exact Hw). apply IH; [intros a b Ha Hb; apply A; right; assumption|exact Hx| |rewrite get_other by (apply N; exact Hx); exact F|exact ND'].
      intros w Hw. destruct (U w (or_intror Hw)) as (data & S1 & S2 & S3). exists data. split; [exact S1|]. split; [exact S2|]. rewrite get_other by (apply N; exact Hw). exact S3.
  - intros p NP. apply fetch_other. intros x Hx E. destruct (I1 x Hx) as (_ & _ & C). apply (NP (i_url x)). rewrite <- E. exact C.
  - intros mt' tr'. apply fetch_present. intros x Hx. destruct (gfz_in directory mt' tr') as (J1 & _). destruct (J1 x Hx) as (_ & _ & C). destruct (PL _ _ C) as (y & E & S1). eauto.
Qed.
Print Assumptions C137_gfz.
(** a run that ends between the last write and the call that sets the time leaves a file whose contents are right and whose time is that of the download: no later run gives it the time of the server *)
Theorem C137_gfz_time_refuted : forall hash server directory mt tr f, (forall b, hash b <> "") -> (forall p, f p = None) -> (forall u p, gfz_file directory u p -> available hash server tr f u p) ->
  let u := ["isdcftp.gfz-potsdam.de"; "grace"; "Level-2"; "GFZ"; "RL06_SLR_C20"; "GFZ_RL06_C20_SLR.dat"] in let p := directory ++ "/GFZ_RL06_C20_SLR.dat" in
  exists k, let g := exec (firstn k (fst (from_gfz hash server directory mt tr f))) f in
  in_place server u (g p) /\ (forall x, g p = Some x -> mtime x = last (map fst (t_chunks (tr u))) (t_open (tr u))) /\
  forall mt' tr', exec (fst (from_gfz hash server directory mt' tr' g)) g p = g p.
Proof.
  intros hash server directory mt tr f HN HF AV u p. exists (S (List.length (t_chunks (tr u)))). destruct (AV u p (gfz_c20 _)) as (data & HS & HT & _).
  set (x := mkitem u p (Ftp (mt u)) (tr u)).
  assert (G : get_item hash server x f = ((arriving p (tr u) ++ [(p, Utime (mt u))])%list, Ok tt)).
  { unfold get_item. cbn [i_url x i_proto i_path i_transfer]. rewrite HS. unfold from_ftp, get_hash. rewrite HF. assert (K : String.eqb "" (hash data) = false) by (apply String.eqb_neq; apply not_eq_sym; apply HN). rewrite K. reflexivity. }
  assert (L : firstn (S (List.length (t_chunks (tr u)))) (fst (from_gfz hash server directory mt tr f)) = arriving p (tr u)).
  { unfold from_gfz, gfz_items, gfz_slr. cbn [map app]. change (mkitem [gfz_host; "grace"; "Level-2"; "GFZ"; "RL06_SLR_C20"; "GFZ_RL06_C20_SLR.dat"] _ _ _) with x. cbn [fetch]. rewrite G. cbn [fst snd]. rewrite <- app_assoc, firstn_app.
    replace (S (List.length (t_chunks (tr u)))) with (List.length (arriving p (tr u))) by (unfold arriving; cbn [List.length]; rewrite map_length; reflexivity). rewrite firstn_all, Nat.sub_diag. apply app_nil_r. }
  cbv zeta. rewrite L. set (g := exec (arriving p (tr u)) f). assert (E : g p = Some (mkfile data (last (map fst (t_chunks (tr u))) (t_open (tr u))))) by (unfold g; rewrite exec_arriving, HT; reflexivity).
  split; [rewrite E; eexists; split; [reflexivity|exact HS]|]. split; [intros y Y; rewrite E in Y; injection Y as <-; reflexivity|].
  intros mt' tr'. unfold from_gfz, gfz_items, gfz_slr. cbn [map app fetch]. rewrite (get_present hash server _ g data); [|exact HS|cbn [i_path]; eexists; split; [exact E|reflexivity]]. cbn [fst snd app]. cbn [exec fold_left].
  change (fst _) with (fst (fetch hash server (tl (gfz_items directory mt' tr')) g)). apply fetch_other.
  intros z Hz K. unfold gfz_items, gfz_slr, join in Hz. cbn [map app tl In base List.last] in Hz. destruct Hz as [<-|[<-|[]]]; cbn [i_path] in K; unfold p in K; rewrite ?app_s_assoc in K; apply append_inj in K; discriminate K.
Qed.
Print Assumptions C137_gfz_time_refuted.

(** ** from_gsfc *)
(** exactly one line of the file gives the dates of its data, and they are two dates *)
Definition span_of (lines : bytes -> list string) (dates : string -> list string) (data : bytes) (a b : string) : Prop :=
  exists l1 span l2, lines data = (l1 ++ span :: l2)%list /\ (exists r, span = "Data span:" ++ r) /\ (forall l, In l l1 \/ In l l2 -> ~ exists r, l = "Data span:" ++ r) /\ dates span = [a; b].
Lemma filter_none {A} (q : A -> bool) l : (forall x, In x l -> q x = false) -> filter q l = [].
Proof. induction l as [|x l IH]; intros H; [reflexivity|]. cbn. rewrite (H x (or_introl eq_refl)). apply IH. intros y Hy. apply H. right. exact Hy. Qed.
Lemma filter_single {A} (q : A -> bool) : forall l s, filter q l = [s] -> exists l1 l2, l = (l1 ++ s :: l2)%list /\ q s = true /\ forall x, In x l1 \/ In x l2 -> q x = false.
Proof.
  induction l as [|x l IH]; intros s H; [discriminate|]. cbn in H. destruct (q x) eqn:E.
  - injection H as -> H. exists [], l. split; [reflexivity|]. split; [exact E|]. intros y [[]|Hy]. destruct (q y) eqn:F; [|reflexivity]. assert (K : In y (filter q l)) by (apply filter_In; auto). rewrite H in K. destruct K.
  - destruct (IH s H) as (l1 & l2 & -> & A1 & A2). exists (x :: l1), l2. split; [reflexivity|]. split; [exact A1|]. intros y [[<-|Hy]|Hy]; auto.
Qed.
Lemma copy_name_ok lines dates ym data a b y1 y2 : span_of lines dates data a b -> ym a = Ok y1 -> ym b = Ok y2 -> copy_name lines dates ym data = Ok ("GSFC_SLR_5x5c61s61_" ++ y1 ++ "_" ++ y2 ++ ".txt").
Proof.
  intros (l1 & span & l2 & E & (r & S1) & N & D) Y1 Y2. unfold copy_name. rewrite E, filter_app. cbn [filter]. rewrite (proj2 (prefix_app _ span) (ex_intro _ r S1)).
  assert (F : forall l, In l l1 \/ In l l2 -> String.prefix "Data span:" l = false).
  { intros l Hl. destruct (String.prefix "Data span:" l) eqn:P; [|reflexivity]. destruct (N l Hl). apply prefix_app in P. exact P. }
  rewrite !filter_none by (intros l Hl; apply F; auto). cbn [app]. rewrite D, Y1, Y2. reflexivity.
Qed.
Lemma copy_name_err lines dates ym data : (forall a b, ~ span_of lines dates data a b) -> copy_name lines dates ym data = Err ValueError.
Proof.
  intros N. unfold copy_name. destruct (filter (String.prefix "Data span:") (lines data)) as [|s [|s' r]] eqn:E; [reflexivity| |reflexivity]. destruct (dates s) as [|a [|b [|c r]]] eqn:D; try reflexivity.
  exfalso. apply (N a b). destruct (filter_single _ _ _ E) as (l1 & l2 & El & P & F). exists l1, s, l2. split; [exact El|]. split; [apply prefix_app; exact P|]. split; [|exact D].
  intros l Hl K. apply prefix_app in K. rewrite (F l Hl) in K. discriminate.
Qed.
Theorem C137_gsfc : forall hash server lines dates ym directory host copy t now cut f data, (forall b, hash b <> "") ->
  let u := (host ++ ["gsfc_slr_5x5c61s61.txt"])%list in let p := directory ++ "/gsfc_slr_5x5c61s61.txt" in
  server u = Some data -> concat (map snd (t_chunks t)) = data -> (forall x, f p = Some x -> hash (content x) = hash data -> content x = data) -> (forall b, concat (cut b) = b) ->
  let s := from_gsfc hash server lines dates ym directory host copy t now cut f in
  in_place server u (exec (fst s) f p) /\
  (copy = false -> snd s = Ok tt /\ forall q, q <> p -> exec (fst s) f q = f q) /\
  (forall a b y1 y2, copy = true -> span_of lines dates data a b -> ym a = Ok y1 -> ym b = Ok y2 ->
     let c := directory ++ "/GSFC_SLR_5x5c61s61_" ++ y1 ++ "_" ++ y2 ++ ".txt" in
     snd s = Ok tt /\ exec (fst s) f c = exec (fst s) f p /\ forall q, q <> p -> q <> c -> exec (fst s) f q = f q) /\
  (copy = true -> (forall a b, ~ span_of lines dates data a b) -> snd s = Err ValueError /\ forall q, q <> p -> exec (fst s) f q = f q).
Proof.
  intros hash server lines dates ym directory host copy t now cut f data HN u p HS HT HC HU. cbv zeta. unfold from_gsfc.
  change (join directory gsfc_file) with p. change ((host ++ [gsfc_file])%list) with u. set (x := mkitem u p Http t). cbn [i_url x].
  assert (U : usable hash server f x) by (exists data; auto). destruct (get_ok hash server HN x f U) as (G & y & E & SY & _). rewrite G, HS. cbn [i_path x] in E. cbn [i_url x] in SY.
  set (o := fst (get_item hash server x f)) in *. set (g := exec o f) in *.
  assert (OT : forall q, q <> p -> g q = f q) by (intros q Hq; exact (get_other hash server x f q Hq)).
  destruct copy; [|split; [exists y; split; [exact E|exact SY]|]; split; [intros _; split; [exact G|exact OT]|]; split; [discriminate|discriminate]].
  assert (CP : forall n, copy_name lines dates ym data = Ok n -> join directory n <> p -> 
    let s := copy_file p (join directory n) now cut g in snd s = Ok tt /\ exec (fst s) g (join directory n) = Some y /\ forall q, q <> join directory n -> exec (fst s) g q = g q).
  { intros n _ NE. unfold copy_file. rewrite E. cbn [fst snd]. set (c := join directory n) in *. split; [reflexivity|].
    set (t' := mktransfer now (map (fun b => (now, b)) (cut (content y)))).
    replace ((c, Open now) :: map (fun b => (c, Write now b)) (cut (content y)) ++ [(c, Utime (mtime y))])%list with (arriving c t' ++ [(c, Utime (mtime y))])%list by (unfold arriving, t'; cbn [t_open t_chunks]; rewrite map_map; reflexivity).
    split.
    - rewrite exec_app. unfold exec at 1. cbn [fold_left fst snd]. rewrite set_same, exec_arriving. cbn [apply content t' t_chunks]. rewrite map_map. cbn [snd]. rewrite map_id, HU. destruct y; reflexivity.
    - intros q Hq. apply exec_other. intros z Hz K. apply in_app_iff in Hz. destruct Hz as [Hz|[<-|[]]]; [rewrite (arriving_path _ _ _ Hz) in K|cbn in K]; congruence. }
  assert (NP : forall a b, join directory ("GSFC_SLR_5x5c61s61_" ++ a ++ "_" ++ b ++ ".txt") <> p) by (intros a b K; unfold p, join in K; apply append_inj in K; discriminate K).
  assert (NM : forall n, copy_name lines dates ym data = Ok n -> join directory n <> p).
  { intros n K. unfold copy_name in K. destruct (filter _ _) as [|s0 [|? ?]]; try discriminate K. destruct (dates s0) as [|a [|b [|? ?]]]; try discriminate K. destruct (ym a) as [y1|]; [|discriminate K]. cbn [bind] in K. destruct (ym b) as [y2|]; [|discriminate K]. cbn [bind] in K. injection K as <-. apply NP. }
  split; [|split; [discriminate|split]].
  - destruct (copy_name lines dates ym data) as [n|e] eqn:K; [|exists y; auto]. destruct (CP n eq_refl (NM n eq_refl)) as (_ & _ & O). cbn [fst]. rewrite exec_app. fold g. rewrite O by (apply not_eq_sym, NM; reflexivity). exists y. auto.
  - intros a b y1 y2 _ SP Y1 Y2. pose proof (copy_name_ok lines dates ym data a b y1 y2 SP Y1 Y2) as K. rewrite K. destruct (CP _ K (NM _ K)) as (A & B & O). cbn [fst snd]. rewrite exec_app. fold g.
    change (join directory ("GSFC_SLR_5x5c61s61_" ++ y1 ++ "_" ++ y2 ++ ".txt")) with (directory ++ "/GSFC_SLR_5x5c61s61_" ++ y1 ++ "_" ++ y2 ++ ".txt") in *.
    split; [exact A|]. split; [rewrite B, O by (apply not_eq_sym; exact (NP y1 y2)); symmetry; exact E|]. intros q Q1 Q2. rewrite O by exact Q2. apply OT. exact Q1.
  - intros _ SP. rewrite (copy_name_err lines dates ym data SP). cbn [fst snd]. split; [reflexivity|exact OT].
Qed.
Print Assumptions C137_gsfc.
Theorem C137_gsfc_missing : forall hash server lines dates ym directory host copy t now cut f, server (host ++ ["gsfc_slr_5x5c61s61.txt"])%list = None ->
  from_gsfc hash server lines dates ym directory host copy t now cut f = ([], Err OtherExn).
Proof. intros. unfold from_gsfc, get_item. cbn [i_url]. unfold gsfc_file. rewrite H. reflexivity. Qed.
Print Assumptions C137_gsfc_missing.

(** ** Examples *)
Definition ex_d : bytes := [b0; b0].
Definition ex_tr : url -> transfer := fun _ => mktransfer 100%R [(101%R, [b0]); (102%R, [b0])].
Definition ex_ls : url -> list string := fun u => match u with [_; _; _; _] => ["2018/"; "readme"; "2019/"] | [_; _; _; _; y] => if String.eqb y "2018/" then ["GSM-2_2018.gfc"; "GAC-2_2018.gfc"] else ["GSM-2_2019.gfc"] | _ => [] end.
Example C137_example : names_of (VStr "LRI") = Ok ["LRI"] /\
  csr_file "/d" "RL06.1LRI" ["LRI"] ex_ls [HOST; "outgoing"; "gracefo"; "RL06.1LRI"; "2018/"; "GAC-2_2018.gfc"] "/d/CSR/RL06.1LRI/GAC/GAC-2_2018.gfc" /\
  (forall u p, available ex_hash (fun _ => Some ex_d) ex_tr (fun _ => None) u p) /\
  map i_path (csr_items ex_ls "/d" "RL06.1LRI" ["LRI"] ex_tr) = ["/d/CSR/RL06.1LRI/GAC/GAC-2_2018.gfc"; "/d/CSR/RL06.1LRI/GSM/GSM-2_2018.gfc"; "/d/CSR/RL06.1LRI/GSM/GSM-2_2019.gfc"] /\
  span_of (fun _ => ["GSFC"; "Data span: 1 Nov 1993 to 31 Dec 2020"]) (fun _ => ["1 Nov 1993"; "31 Dec 2020"]) ex_d "1 Nov 1993" "31 Dec 2020".
Proof.
  split; [reflexivity|]. split.
  { apply (csr_lri "/d" "RL06.1LRI" ["LRI"] ex_ls "GAC" "2018/" "GAC-2_2018.gfc"); try (cbn; auto; fail); [exists "", "2"%char, "0"%char, "1"%char, "8"%char, "/"; repeat split|exists "", "-2_2018.gfc"; reflexivity]. }
  split; [intros u p; exists ex_d; split; [reflexivity|]; split; [reflexivity|discriminate]|]. split; [reflexivity|].
  exists ["GSFC"], "Data span: 1 Nov 1993 to 31 Dec 2020", []. split; [reflexivity|]. split; [eexists; reflexivity|]. split; [|reflexivity].
  intros l [[<-|[]]|[]] (r & K). discriminate K.
Qed.
