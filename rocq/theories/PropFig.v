(** C138: figshare downloads and presigned addresses (model: FigModel.v). *)
From Coq Require Import Reals Lia String Ascii.
From Verif Require Import Base SyncModel UtilModel DownModel FigModel PropSync PropUtil PropDown.
Close Scope Z_scope.
Close Scope R_scope.
Open Scope list_scope.

(** ** Specification *)
(** the files of the answer that are asked for, and where they go *)
Definition asked (wanted : string -> bool) (files : list entry) (e : entry) : Prop := In e files /\ wanted (e_name e) = true.
Definition local_path (directory : string) (e : entry) : string := (directory ++ "/geocenter/" ++ e_name e)%string.
(** the names of a key, one slash between them *)
Fixpoint slashed (l : list (list ascii)) : list ascii := match l with [] => [] | [a] => a | a :: r => a ++ "/"%char :: slashed r end.
(** ** from_figshare *)
Lemma place_eq d e : place d e = local_path d e.
Proof. unfold place, local_path, join. rewrite !app_s_assoc. reflexivity. Qed.
Lemma asked_in wanted files e : In e (filter (fun e => wanted (e_name e)) files) <-> asked wanted files e.
Proof. rewrite filter_In. reflexivity. Qed.
Lemma place_inj d e e' : local_path d e = local_path d e' -> e_name e = e_name e'.
Proof. intros H. unfold local_path in H. apply append_inj in H. cbn in H. repeat (injection H as H). exact H. Qed.
Section One.
Context (hash : bytes -> string) (server : url -> option bytes) (d : string).
Lemma verified_path tr : forall l f o, In o (fst (verified hash server d tr l f)) -> exists e, In e l /\ fst o = local_path d e.
Proof using.
  induction l as [|e l IH]; intros f o H; [destruct H|]. cbn [verified] in H.
  destruct (snd (get_item hash server (mkitem (e_url e) (place d e) Http (tr (e_url e))) f)).
  - destruct (String.eqb _ _); cbn [fst] in H.
    + apply in_app_iff in H. destruct H as [H|H]; [exists e; split; [left; reflexivity|]; apply get_path in H; rewrite H; apply place_eq|]. destruct (IH _ _ H) as (e' & He & E). exists e'. split; [right; exact He|exact E].
    + exists e. split; [left; reflexivity|]. apply get_path in H. rewrite H. apply place_eq.
  - exists e. split; [left; reflexivity|]. apply get_path in H. rewrite H. apply place_eq.
Qed.
Lemma verified_other tr l f p : (forall e, In e l -> local_path d e <> p) -> exec (fst (verified hash server d tr l f)) f p = f p.
Proof using. intros H. apply exec_other. intros o Ho E. destruct (verified_path tr l f o Ho) as (e & He & Ee). apply (H e He). congruence. Qed.
Lemma verified_ok tr : forall l f, NoDup (map e_name l) -> snd (verified hash server d tr l f) = Ok tt -> forall e, In e l -> get_hash hash (exec (fst (verified hash server d tr l f)) f) (local_path d e) = e_md5 e.
Proof using.
  induction l as [|x l IH]; intros f ND H e He; [destruct He|]. inversion ND as [|a b NI ND']; subst. cbn [verified] in *. set (s := get_item hash server (mkitem (e_url x) (place d x) Http (tr (e_url x))) f) in *.
  destruct (snd s) eqn:S1; [|rewrite S1 in H; discriminate]. destruct (String.eqb_spec (get_hash hash (exec (fst s) f) (place d x)) (e_md5 x)) as [E|E]; [|discriminate H]. cbn [fst snd] in *.
  destruct He as [->|He].
  - unfold get_hash. rewrite exec_app, verified_other; [rewrite place_eq in E; exact E|]. intros y Hy K. apply place_inj in K. apply NI. rewrite <- K. apply in_map. exact Hy.
  - rewrite exec_app. apply IH; assumption.
Qed.
Context (HN : forall b, hash b <> ""%string).
Definition good tr (f : fs) (e : entry) : Prop := available hash server tr f (e_url e) (local_path d e) /\ forall data, server (e_url e) = Some data -> hash data = e_md5 e.
Lemma verified_step tr e l f : good tr f e -> exists y, let g := exec (fst (get_item hash server (mkitem (e_url e) (place d e) Http (tr (e_url e))) f)) f in
  g (local_path d e) = Some y /\ server (e_url e) = Some (content y) /\ (forall p, p <> local_path d e -> g p = f p) /\
  verified hash server d tr (e :: l) f = (fst (get_item hash server (mkitem (e_url e) (place d e) Http (tr (e_url e))) f) ++ fst (verified hash server d tr l g), snd (verified hash server d tr l g)).
Proof.
  intros (AV & M). set (x := mkitem (e_url e) (place d e) Http (tr (e_url e))). rewrite <- place_eq in *.
  assert (U : usable hash server f x). { destruct AV as (data & A & B & C). exists data. auto. }
  destruct (get_ok hash server HN x f U) as (G & y & E & SY & _). exists y. cbv zeta. split; [exact E|]. split; [exact SY|]. split; [intros p Hp; apply get_other; exact Hp|].
  cbn [verified]. fold x. rewrite G. unfold get_hash at 1. change (i_path x) with (place d e) in E. rewrite E, (M _ SY), String.eqb_refl. reflexivity.
Qed.
Lemma good_next tr f e e' y g : e_name e' <> e_name e -> good tr f e' -> g (local_path d e) = Some y -> (forall p, p <> local_path d e -> g p = f p) -> good tr g e'.
Proof using.
  intros NE ((data & A & B & C) & M) _ O. split; [|exact M]. exists data. do 2 (split; [assumption|]). rewrite O; [exact C|]. intros K. apply NE. apply (place_inj d). exact K.
Qed.
Lemma verified_all tr : forall l f, NoDup (map e_name l) -> (forall e, In e l -> good tr f e) -> snd (verified hash server d tr l f) = Ok tt /\
  forall e, In e l -> in_place server (e_url e) (exec (fst (verified hash server d tr l f)) f (local_path d e)).
Proof.
  induction l as [|x l IH]; intros f ND G; [split; [reflexivity|intros e []]|]. inversion ND as [|a b NI ND']; subst.
  destruct (verified_step tr x l f (G x (or_introl eq_refl))) as (y & E & SY & O & EQ). rewrite EQ. cbn [fst snd]. set (g := exec _ f) in *.
  assert (G' : forall e, In e l -> good tr g e).
  { intros e He. apply (good_next tr f x e y); [intros K; apply NI; rewrite <- K; apply in_map; exact He|apply G; right; exact He|exact E|exact O]. }
  destruct (IH g ND' G') as (Q1 & Q2). split; [exact Q1|]. intros e [<-|He]; rewrite exec_app; fold g; [|apply Q2; exact He].
  rewrite verified_other; [exists y; split; assumption|]. intros z Hz K. apply place_inj in K. apply NI. rewrite <- K. apply in_map. exact Hz.
Qed.
Lemma verified_present tr : forall l f, (forall e, In e l -> in_place server (e_url e) (f (local_path d e)) /\ forall data, server (e_url e) = Some data -> hash data = e_md5 e) ->
  verified hash server d tr l f = ([], Ok tt).
Proof using.
  induction l as [|x l IH]; intros f H; [reflexivity|]. cbn [verified]. destruct (H x (or_introl eq_refl)) as ((y & E & SY) & M). rewrite <- place_eq in E.
  rewrite (get_present hash server (mkitem (e_url x) (place d x) Http (tr (e_url x))) f (content y)) by (cbn [i_url i_path]; eauto). cbn [fst snd exec fold_left]. unfold get_hash. rewrite E, (M _ SY), String.eqb_refl.
  rewrite IH by (intros e He; apply H; right; exact He). reflexivity.
Qed.
Lemma verified_stop tr x l2 : forall l1 f, NoDup (map e_name (l1 ++ x :: l2)) -> (forall e, In e l1 -> good tr f e) -> available hash server tr f (e_url x) (local_path d x) ->
  (forall data, server (e_url x) = Some data -> hash data <> e_md5 x) -> let s := verified hash server d tr (l1 ++ x :: l2) f in
  snd s = Err OtherExn /\ (forall e, In e (l1 ++ [x]) -> in_place server (e_url e) (exec (fst s) f (local_path d e))) /\ forall p, (forall e, In e (l1 ++ [x]) -> local_path d e <> p) -> exec (fst s) f p = f p.
Proof.
  induction l1 as [|z l1 IH]; intros f ND G AV M.
  - cbn [app]. cbv zeta. set (i := mkitem (e_url x) (place d x) Http (tr (e_url x))). rewrite <- place_eq in AV. destruct AV as (data & A & B & C).
    assert (U : usable hash server f i) by (exists data; auto). destruct (get_ok hash server HN i f U) as (Q & y & E & SY & _). change (i_path i) with (place d x) in E.
    cbn [verified]. fold i. rewrite Q. unfold get_hash. rewrite E. destruct (String.eqb_spec (hash (content y)) (e_md5 x)) as [K|K]; [destruct (M _ SY K)|]. cbn [fst snd]. split; [reflexivity|]. split.
    + intros e [<-|[]]. rewrite <- place_eq. exists y. split; [exact E|exact SY].
    + intros p Hp. apply (get_other hash server i). rewrite <- (Hp x (or_introl eq_refl)) || (change (i_path i) with (place d x); rewrite place_eq; apply not_eq_sym; apply Hp; left; reflexivity).
  - cbn [app] in *. cbv zeta. inversion ND as [|a b NI ND']; subst. destruct (verified_step tr z (l1 ++ x :: l2) f (G z (or_introl eq_refl))) as (y & E & SY & O & EQ). rewrite EQ. cbn [fst snd]. set (g := exec _ f) in *.
    assert (NE : forall e, In e (l1 ++ x :: l2) -> e_name e <> e_name z) by (intros e He K; apply NI; rewrite <- K; apply in_map; exact He).
    assert (G' : forall e, In e l1 -> good tr g e) by (intros e He; apply (good_next tr f z e y); [apply NE; apply in_app_iff; auto|apply G; right; exact He|exact E|exact O]).
    assert (AV' : available hash server tr g (e_url x) (local_path d x)).
    { destruct AV as (data & A & B & C). exists data. do 2 (split; [assumption|]). rewrite O; [exact C|]. intros K. apply place_inj in K. apply (NE x); [apply in_app_iff; right; left; reflexivity|exact K]. }
    destruct (IH g ND' G' AV' M) as (Q1 & Q2 & Q3). cbv zeta in Q1, Q2, Q3. split; [exact Q1|]. split.
    + intros e [<-|He]; rewrite exec_app; fold g; [|apply Q2; exact He]. rewrite Q3; [exists y; split; assumption|]. intros e He K. apply place_inj in K. apply in_app_iff in He. apply (NE e); [apply in_app_iff; destruct He as [He|[He|[]]]; [left; exact He|right; left; exact He]|exact K].
    + intros p Hp. rewrite exec_app. fold g. rewrite Q3 by (intros e He; apply Hp; right; exact He). apply O. apply not_eq_sym. apply Hp. left. reflexivity.
Qed.
End One.
(** a run that returns has verified every file: whatever the server sent and whatever was there before, the hash of the local file is the one that figshare gives *)
Theorem C138_verified : forall hash server wanted d tr files f, NoDup (map e_name (filter (fun e => wanted (e_name e)) files)) ->
  let s := from_figshare hash server wanted d tr files f in snd s = Ok tt -> forall e, asked wanted files e ->
  match exec (fst s) f (local_path d e) with Some y => hash (content y) = e_md5 e | None => e_md5 e = ""%string end.
Proof.
  intros hash server wanted d tr files f ND s H e He. unfold s, from_figshare in *. apply asked_in in He. pose proof (verified_ok hash server d tr _ f ND H e He) as Q0. unfold get_hash in Q0. destruct (exec _ f (local_path d e)); [exact Q0|symmetry; exact Q0].
Qed.
Print Assumptions C138_verified.
(** a complete run: the files asked for are in place, nothing else changes, a second run writes nothing *)
Theorem C138_figshare : forall hash server wanted d tr files f, (forall b, hash b <> ""%string) -> NoDup (map e_name (filter (fun e => wanted (e_name e)) files)) ->
  (forall e, asked wanted files e -> available hash server tr f (e_url e) (local_path d e) /\ forall data, server (e_url e) = Some data -> hash data = e_md5 e) ->
  let s := from_figshare hash server wanted d tr files f in
  snd s = Ok tt /\ (forall e, asked wanted files e -> in_place server (e_url e) (exec (fst s) f (local_path d e))) /\
  (forall p, (forall e, asked wanted files e -> p <> local_path d e) -> exec (fst s) f p = f p) /\
  forall tr', from_figshare hash server wanted d tr' files (exec (fst s) f) = ([], Ok tt).
Proof.
  intros hash server wanted d tr files f HN ND H. cbv zeta. unfold from_figshare. set (l := filter _ files) in *.
  assert (A : forall e, In e l -> asked wanted files e) by (intros e He; apply asked_in; exact He).
  destruct (verified_all hash server d HN tr l f ND (fun e He => H e (A e He))) as (Q1 & Q2). split; [exact Q1|]. split; [intros e He; apply Q2; apply asked_in; exact He|]. split.
  - intros p Hp. apply verified_other. intros e He. apply not_eq_sym. apply Hp. apply A. exact He.
  - intros tr'. apply verified_present. intros e He. split; [apply Q2; exact He|apply (H e (A e He))].
Qed.
Print Assumptions C138_figshare.
(** a file with another checksum ends the run, but it stays in place, and every later run ends there too, without downloading it again *)
Theorem C138_mismatch_refuted : forall hash server wanted d tr files f l1 x l2, (forall b, hash b <> ""%string) -> filter (fun e => wanted (e_name e)) files = l1 ++ x :: l2 -> NoDup (map e_name (l1 ++ x :: l2)) ->
  (forall e, In e (l1 ++ [x]) -> available hash server tr f (e_url e) (local_path d e)) ->
  (forall e data, In e l1 -> server (e_url e) = Some data -> hash data = e_md5 e) -> (forall data, server (e_url x) = Some data -> hash data <> e_md5 x) ->
  let s := from_figshare hash server wanted d tr files f in
  snd s = Err OtherExn /\ (forall e, In e (l1 ++ [x]) -> in_place server (e_url e) (exec (fst s) f (local_path d e))) /\
  (forall p, (forall e, In e (l1 ++ [x]) -> local_path d e <> p) -> exec (fst s) f p = f p) /\
  forall tr', from_figshare hash server wanted d tr' files (exec (fst s) f) = ([], Err OtherExn).
Proof.
  intros hash server wanted d tr files f l1 x l2 HN EF ND AV M1 M2. cbv zeta. unfold from_figshare. rewrite EF.
  assert (G : forall e, In e l1 -> good hash server d tr f e) by (intros e He; split; [apply AV; apply in_app_iff; auto|intros data; apply M1; exact He]).
  destruct (verified_stop hash server d HN tr x l2 l1 f ND G (AV x ltac:(apply in_app_iff; right; left; reflexivity)) M2) as (Q1 & Q2 & Q3). cbv zeta in Q1, Q2, Q3. do 3 (split; [assumption|]).
  intros tr'. set (g := exec _ f) in *. clearbody g. clear Q1 Q3 ND G EF AV f. revert g Q2. induction l1 as [|z l1 IH]; intros g Q2.
  - cbn [app verified]. destruct (Q2 x (or_introl eq_refl)) as (y & E & SY). rewrite <- place_eq in E.
    rewrite (get_present hash server (mkitem (e_url x) (place d x) Http (tr' (e_url x))) g (content y)) by (cbn [i_url i_path]; eauto). cbn [fst snd exec fold_left]. unfold get_hash. rewrite E.
    destruct (String.eqb_spec (hash (content y)) (e_md5 x)) as [K|K]; [destruct (M2 _ SY K)|reflexivity].
  - cbn [app verified]. destruct (Q2 z (or_introl eq_refl)) as (y & E & SY). rewrite <- place_eq in E.
    rewrite (get_present hash server (mkitem (e_url z) (place d z) Http (tr' (e_url z))) g (content y)) by (cbn [i_url i_path]; eauto). cbn [fst snd exec fold_left]. unfold get_hash. rewrite E, (M1 z _ (or_introl eq_refl) SY), String.eqb_refl.
    rewrite IH; [reflexivity|intros e data He; apply M1; right; exact He|intros e He; apply Q2; right; exact He].
Qed.
Print Assumptions C138_mismatch_refuted.

(** ** s3_bucket, s3_key *)
Lemma sub_plain : forall l n, ~ In slash l -> sub n 0 l = l.
Proof.
  induction l as [|c l IH]; intros n H; [reflexivity|]. cbn [sub]. destruct n; [reflexivity|]. assert (N : starts s3 (c :: l) = false).
  { destruct (starts s3 (c :: l)) eqn:Q; [|reflexivity]. exfalso. apply H. assert (G : forall p k, starts p k = true -> In slash p -> In slash k).
    { clear. induction p as [|a p IH]; intros [|b k] Q I; cbn [starts] in Q; try (destruct I; fail); try discriminate. apply Bool.andb_true_iff in Q. destruct Q as [Q1 Q2]. apply Ascii.eqb_eq in Q1. subst b. destruct I as [->|I]; [left; reflexivity|right; apply IH; assumption]. }
    apply (G _ _ Q). unfold s3, slash. cbn. auto. }
  rewrite N. f_equal. apply IH. intros K. apply H. right. exact K.
Qed.
Lemma join_plain a b : a <> [] -> ~ In slash a -> ~ In slash b -> path_join a b = a ++ slash :: b.
Proof.
  intros NE Na Nb. unfold path_join. assert (E : starts [slash] b = false).
  { destruct b as [|c b]; [reflexivity|]. cbn [starts]. destruct (Ascii.eqb_spec slash c) as [<-|N]; [destruct Nb; left; reflexivity|reflexivity]. }
  rewrite E. destruct (rev a) as [|c r] eqn:R0; [apply (f_equal (@rev ascii)) in R0; rewrite rev_involutive in R0; contradiction|].
  destruct (is_slash c) eqn:Q; [|reflexivity]. exfalso. apply Na. unfold is_slash in Q. apply Ascii.eqb_eq in Q. subst c. apply in_rev. rewrite R0. left. reflexivity.
Qed.
Lemma fold_join : forall l a, (exists x c, a = x ++ [c] /\ c <> slash) -> Forall (fun c => no_slash c /\ c <> []) l -> fold_left path_join l a = a ++ match l with [] => [] | _ => slash :: slashed l end.
Proof.
  induction l as [|b l IH]; intros a HA F; [cbn; rewrite app_nil_r; reflexivity|]. inversion F as [|? ? [N1 N2] F']; subst. cbn [fold_left].
  assert (J : path_join a b = a ++ slash :: b).
  { unfold path_join. destruct HA as (x & c & -> & Nc). assert (E : starts [slash] b = false).
    { destruct b as [|q b]; [reflexivity|]. cbn [starts]. destruct (Ascii.eqb_spec slash q) as [<-|N]; [destruct N1; left; reflexivity|reflexivity]. }
    rewrite E, rev_app_distr. cbn [rev app]. unfold is_slash. destruct (Ascii.eqb_spec c slash) as [->|N]; [contradiction|]. reflexivity. }
  rewrite J. rewrite IH; [|destruct b as [|c b _] using rev_ind; [contradiction|]; exists (a ++ slash :: b), c; split; [rewrite <- app_assoc; reflexivity|]; intros ->; apply N1; apply in_app_iff; right; left; reflexivity|exact F'].
  rewrite <- app_assoc. cbn [app]. destruct l as [|c l]; [rewrite app_nil_r; reflexivity|]. reflexivity.
Qed.
(** an address s3://bucket/a/b/c: bucket and key; several slashes in the key become one *)
Theorem C138_s3 : forall bucket n rest depth, no_slash bucket -> bucket <> [] -> no_slash (snd n) -> snd n <> [] -> Forall (fun c => no_slash (snd c) /\ snd c <> []) rest -> (S (List.length rest) < depth)%nat ->
  let u := chars "s3://" ++ bucket ++ tail_of (n :: rest) in
  s3_bucket depth u = Ok bucket /\ s3_key depth u = Ok (slashed (map snd (n :: rest))).
Proof.
  intros bucket n rest depth NB BE Nn NE F L. cbv zeta.
  assert (E : url_split depth (chars "s3://" ++ bucket ++ tail_of (n :: rest)) = Ok ((chars "s3://" ++ bucket) :: map snd (n :: rest))).
  { change (chars "s3://" ++ bucket ++ tail_of (n :: rest)) with (chars "s3:" ++ slashes 2 ++ bucket ++ tail_of (n :: rest)).
    rewrite (C59_join (chars "s3:") 1 bucket (n :: rest) depth); [reflexivity|unfold protocols; cbn; auto 10|exact NB|exact BE|constructor; auto|cbn [List.length]; exact L]. }
  unfold s3_bucket, s3_key. rewrite E. cbn [bind map]. split.
  - f_equal. change (sub 2 0 (chars "s3://" ++ bucket)) with (sub 1 0 bucket). apply sub_plain. exact NB.
  - f_equal. rewrite fold_join.
    + destruct rest as [|r rest]; cbn [map slashed]; [apply app_nil_r|reflexivity].
    + destruct (snd n) as [|c b _] using rev_ind; [contradiction|]. exists b, c. split; [reflexivity|]. intros ->. apply Nn. apply in_app_iff. right. left. reflexivity.
    + apply Forall_map. exact F.
Qed.
Print Assumptions C138_s3.
(** an address without a key has a bucket and no key *)
Theorem C138_s3_no_key : forall bucket depth, no_slash bucket -> bucket <> [] -> (0 < depth)%nat -> s3_bucket depth (chars "s3://" ++ bucket) = Ok bucket /\ s3_key depth (chars "s3://" ++ bucket) = Err TypeError.
Proof.
  intros bucket depth NB BE L. assert (E : url_split depth (chars "s3://" ++ bucket) = Ok [chars "s3://" ++ bucket]).
  { pose proof (C59_join (chars "s3:") 1 bucket [] depth ltac:(unfold protocols; cbn; auto 10) NB BE ltac:(constructor) L) as Q0. cbn [tail_of map] in Q0. rewrite app_nil_r in Q0. exact Q0. }
  unfold s3_bucket, s3_key. rewrite E. cbn [bind]. split; [|reflexivity]. f_equal. change (sub 2 0 (chars "s3://" ++ bucket)) with (sub 1 0 bucket). apply sub_plain. exact NB.
Qed.
Print Assumptions C138_s3_no_key.
(** IGNORECASE is passed as the number of replacements: with S3:// in upper case the bucket is the scheme, and the bucket is the first part of the key *)
Theorem C138_s3_case_refuted : forall bucket key depth, no_slash bucket -> bucket <> [] -> no_slash key -> key <> [] -> (2 < depth)%nat ->
  let u := chars "S3://" ++ bucket ++ "/"%char :: key in s3_bucket depth u = Ok (chars "S3:") /\ s3_key depth u = Ok (bucket ++ "/"%char :: key).
Proof.
  intros bucket key depth NB BE NK KE L. cbv zeta.
  assert (E : url_split depth (chars "S3://" ++ bucket ++ "/"%char :: key) = Ok [chars "S3:"; bucket; key]).
  { destruct depth as [|[|[|n]]]; try lia. change (chars "S3://" ++ bucket ++ "/"%char :: key) with (chars "S3://" ++ bucket ++ slashes 1 ++ key). rewrite app_assoc. cbn [url_split].
    assert (T1 : no_trailing (chars "S3://" ++ bucket)).
    { split; [discriminate|]. intros r Hr. destruct bucket as [|c b _] using rev_ind; [contradiction|]. rewrite app_assoc in Hr. apply app_inj_tail in Hr. destruct Hr as [_ ->]. apply NB. apply in_app_iff. right. left. reflexivity. }
    rewrite (split_app _ 0 key T1 NK).
    assert (P1 : existsb (str_eqb (chars "S3://" ++ bucket)) protocols = false) by (destruct (existsb _ protocols) eqn:Q; [|reflexivity]; apply existsb_in in Q; unfold protocols in Q; cbn in Q; repeat (destruct Q as [Q|Q]; [discriminate Q|]); destruct Q).
    assert (P2 : existsb (str_eqb (chars "S3://" ++ bucket)) [[]; [slash]] = false) by (destruct (existsb _ [[]; [slash]]) eqn:Q; [|reflexivity]; apply existsb_in in Q; destruct Q as [Q|[Q|[]]]; discriminate Q).
    rewrite P1, P2. change (chars "S3://" ++ bucket) with (chars "S3:" ++ slashes 2 ++ bucket).
    assert (T2 : no_trailing (chars "S3:")). { split; [discriminate|]. intros r Hr. apply (f_equal (@rev ascii)) in Hr. rewrite rev_app_distr in Hr. discriminate Hr. }
    rewrite (split_app _ 1 bucket T2 NB).
    change (existsb (str_eqb (chars "S3:")) protocols) with false. change (existsb (str_eqb (chars "S3:")) [[]; [slash]]) with false. reflexivity. }
  unfold s3_bucket, s3_key. rewrite E. cbn [bind]. split; [reflexivity|]. cbn [fold_left]. f_equal. apply join_plain; [exact BE|exact NB|exact NK].
Qed.
Print Assumptions C138_s3_case_refuted.

(** ** Examples *)
Example C138_example : let files := [mkentry "CSR_RL06_GSM_SLF_iter.txt" ["u"]%string (ex_hash ex_d); mkentry "other.txt" ["v"]%string "0"] in
  let wanted := String.prefix "CSR" in
  NoDup (map e_name (filter (fun e => wanted (e_name e)) files)) /\ asked wanted files (mkentry "CSR_RL06_GSM_SLF_iter.txt" ["u"]%string (ex_hash ex_d)) /\
  (forall e, asked wanted files e -> available ex_hash (fun _ => Some ex_d) ex_tr (fun _ => None) (e_url e) (local_path "/d" e) /\ forall data, Some ex_d = Some data -> ex_hash data = e_md5 e) /\
  s3_bucket 20 (chars "s3://podaac/a//b.nc") = Ok (chars "podaac") /\ s3_key 20 (chars "s3://podaac/a//b.nc") = Ok (chars "a/b.nc").
Proof.
  cbv zeta. split; [repeat constructor; intros []|]. split; [split; [left; reflexivity|reflexivity]|]. split; [|split; reflexivity].
  intros e ([<-|[<-|[]]] & W); [|discriminate W]. split; [exists ex_d; split; [reflexivity|]; split; [reflexivity|discriminate]|intros data E; injection E as <-; reflexivity].
Qed.
