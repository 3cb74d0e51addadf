(** C125: queries of the Common Metadata Repository. *)
From Coq Require Import Reals Ascii String.
From Verif Require Import Base UtilModel PropUtil2 CmrModel.
Close Scope Z_scope.
Close Scope R_scope.
Open Scope nat_scope.
Open Scope list_scope.

(** ** specification *)
(** the header that goes with a request: none for the first page, then the one of the page before *)
Definition cursor (token : nat -> string) (i : nat) : option string := match i with 0 => None | S j => Some (token j) end.
Definition page_of (t : option string) (p : response) (es : list entry) : Prop := p_entries p = Some es /\ search_after p = t.
(** the server has the granules on these pages, and each page goes with a header that leads to the next *)
Definition holds (s : server) (url : string) (token : nat -> string) (ps : list (list entry)) : Prop :=
  (forall i, token i <> ""%string) /\ forall i es, nth_error ps i = Some es -> exists p, s (mkrequest url (cursor token i)) = Ok p /\ page_of (Some (token i)) p es.
(** what comes after the pages *)
Definition then_ (s : server) (url : string) (token : nat -> string) (ps : list (list entry)) (r : res response) : Prop := s (mkrequest url (cursor token (List.length ps))) = r.
Definition linked (rel : string) (es : list entry) : Prop := Exists (has_link rel) es.
Definition url_list (rel : string) (es : list entry) : list string := flat_map (fun e => opt_list (first_with rel (e_links e))) es.

(** ** the pages *)
Lemma linked_urls rel es : linked rel es <-> url_list rel es <> [].
Proof.
  unfold linked, url_list. induction es as [|e es IH]; cbn [flat_map]; [split; [intros H; inversion H|congruence]|].
  split.
  - intros H. inversion H as [? ? A|? ? A]; subst; [apply has_first in A as (h & ->); discriminate|]. apply IH in A. destruct (flat_map _ es); [congruence|]. destruct (first_with rel (e_links e)); discriminate.
  - intros H. destruct (first_with rel (e_links e)) as [h|] eqn:E; [left; apply has_first; eauto|right; apply IH; exact H].
Qed.
Lemma filter_page ep rel es : known ep rel -> cmr_filter_json (Some es) ep = Ok (Three (map e_title es) (url_list rel es) (map e_mtime es)).
Proof. intros K. apply known_rel in K. unfold cmr_filter_json. now rewrite (loop_spec ep rel es K). Qed.
Lemma header_cursor token i : (forall i, token i <> ""%string) -> header (cursor token i) = cursor token i.
Proof. intros N. destruct i; cbn; [reflexivity|]. specialize (N i). destruct (token i); congruence. Qed.
Definition gathered (rel : string) (es : list entry) (acc : found) : found :=
  let '(n, u, m) := acc in (n ++ map e_title es, u ++ url_list rel es, m ++ map e_mtime es).
Lemma page_step s ep rel url token k f p es acc : known ep rel -> (forall i, token i <> ""%string) -> s (mkrequest url (cursor token k)) = Ok p -> page_of (Some (token k)) p es -> linked rel es ->
  pages s ep url (S f) (cursor token k) acc = pages s ep url f (cursor token (S k)) (gathered rel es acc).
Proof.
  intros K NE E (P1 & P2) L. cbn [pages]. rewrite header_cursor by exact NE. rewrite E, P1, (filter_page ep rel es K), P2. apply linked_urls in L. destruct acc as [[n u] m]. cbn [gathered cursor].
  destruct (url_list rel es); [congruence|reflexivity].
Qed.
(** after the pages that lead to a next one the search goes on with what it has gathered *)
Lemma pages_run s ep rel url token : known ep rel -> (forall i, token i <> ""%string) -> forall ps k f acc,
  (forall i es, nth_error ps i = Some es -> exists p, s (mkrequest url (cursor token (k + i))) = Ok p /\ page_of (Some (token (k + i))) p es) -> Forall (linked rel) ps ->
  pages s ep url (List.length ps + f) (cursor token k) acc = pages s ep url f (cursor token (k + List.length ps)) (gathered rel (List.concat ps) acc).
Proof.
  intros K NE. induction ps as [|es ps IH]; intros k f acc H F.
  - cbn. rewrite Nat.add_0_r. destruct acc as [[n u] m]. cbn. now rewrite !app_nil_r.
  - inversion F as [|? ? F1 F2]; subst. destruct (H 0 es eq_refl) as (p & E & P). rewrite Nat.add_0_r in E, P. cbn [List.length Nat.add]. rewrite (page_step s ep rel url token k _ p es acc K NE E P F1).
    rewrite (IH (S k)); [|intros i es' G; destruct (H (S i) es' G) as (p' & E' & P'); exists p'; replace (S k + i) with (k + S i) by lia; auto|exact F2].
    replace (S k + List.length ps) with (k + S (List.length ps)) by lia. f_equal. destruct acc as [[n u] m]. cbn [gathered List.concat]. unfold url_list. rewrite !map_app, flat_map_app, !app_assoc. reflexivity.
Qed.
Lemma pages_all s ep rel url token ps f : known ep rel -> holds s url token ps -> Forall (linked rel) ps ->
  pages s ep url (List.length ps + f) None ([], [], []) = pages s ep url f (cursor token (List.length ps)) (map e_title (List.concat ps), url_list rel (List.concat ps), map e_mtime (List.concat ps)).
Proof. intros K (NE & H) F. apply (pages_run s ep rel url token K NE ps 0 f ([], [], []) H F). Qed.
Lemma split_fuel {A} (l : list A) fuel : List.length l < fuel -> exists f, fuel = List.length l + S f.
Proof. intros H. exists (fuel - List.length l - 1). lia. Qed.
Lemma url_list_all rel es : Forall (has_link rel) es -> Forall2 (granule_url rel) es (url_list rel es).
Proof.
  unfold url_list. induction es as [|e es IH]; intros F; cbn; [constructor|]. inversion F as [|? ? H1 H2]; subst. apply has_first in H1 as (h & E). rewrite E. cbn. constructor; [now apply first_with_some|now apply IH].
Qed.

(** ** C125: when the pages end with one that is empty, all granules are returned: a name, url and time each, in the order of the server, for any number and size of pages.
    [names]: the short names of the collections *)
Theorem C125_all_pages : forall s parse mission center release level product solution version first last provider ep rel names ps token p fuel, known ep rel ->
  cmr_product_shortname mission center release level version all_products = Ok names -> let url := query parse names level product solution version first last provider in
  holds s url token ps -> Forall (fun es => es <> [] /\ Forall (has_link rel) es) ps -> then_ s url token ps (Ok p) -> p_entries p = Some [] -> List.length ps < fuel ->
  exists urls, cmr s parse fuel mission center release level product solution version first last provider ep = Some (Ok (map e_title (List.concat ps), urls, map e_mtime (List.concat ps))) /\
    Forall2 (granule_url rel) (List.concat ps) urls.
Proof.
  intros s parse mission center release level product solution version first last provider ep rel names ps token p fuel K N url H F T E L. exists (url_list rel (List.concat ps)). split.
  - unfold cmr. rewrite N. fold url. destruct (split_fuel ps fuel L) as (f & ->). rewrite (pages_all s ep rel url token ps (S f) K H).
    + cbn [pages]. rewrite header_cursor by apply H. rewrite T, E. cbn. reflexivity.
    + eapply Forall_impl; [|exact F]. intros es (NE & A). destruct es as [|e es]; [congruence|]. left. now inversion A.
  - apply url_list_all. apply Forall_concat. eapply Forall_impl; [|exact F]. now intros es (_ & A).
Qed.
(** the size of the pages makes no difference *)
Theorem C125_page_size : forall s1 s2 parse mission center release level product solution version first last provider ep rel names ps1 ps2 t1 t2 p1 p2 f1 f2, known ep rel ->
  cmr_product_shortname mission center release level version all_products = Ok names -> let url := query parse names level product solution version first last provider in
  holds s1 url t1 ps1 -> holds s2 url t2 ps2 -> Forall (linked rel) ps1 -> Forall (linked rel) ps2 -> List.concat ps1 = List.concat ps2 ->
  then_ s1 url t1 ps1 (Ok p1) -> then_ s2 url t2 ps2 (Ok p2) -> p_entries p1 = Some [] -> p_entries p2 = Some [] -> List.length ps1 < f1 -> List.length ps2 < f2 ->
  cmr s1 parse f1 mission center release level product solution version first last provider ep = cmr s2 parse f2 mission center release level product solution version first last provider ep.
Proof.
  intros s1 s2 parse mission center release level product solution version first last provider ep rel names ps1 ps2 t1 t2 p1 p2 f1 f2 K N url H1 H2 F1 F2 C T1 T2 E1 E2 L1 L2. unfold cmr. rewrite N. fold url.
  destruct (split_fuel ps1 f1 L1) as (g1 & ->), (split_fuel ps2 f2 L2) as (g2 & ->). rewrite (pages_all s1 ep rel url t1 ps1 (S g1) K H1 F1), (pages_all s2 ep rel url t2 ps2 (S g2) K H2 F2). rewrite C.
  cbn [pages]. rewrite !header_cursor by (apply H1 || apply H2). rewrite T1, T2, E1, E2. reflexivity.
Qed.
(** REFUTED: a page without the header is not returned, although it is read: when the server gives no header with its last page, the granules of this page are lost.
    With a single page nothing is returned *)
Theorem C125_last_page_refuted : forall s parse mission center release level product solution version first last provider ep rel names ps token p es fuel, known ep rel ->
  cmr_product_shortname mission center release level version all_products = Ok names -> let url := query parse names level product solution version first last provider in
  holds s url token ps -> Forall (linked rel) ps -> then_ s url token ps (Ok p) -> page_of None p es -> List.length ps < fuel ->
  cmr s parse fuel mission center release level product solution version first last provider ep = Some (Ok (map e_title (List.concat ps), url_list rel (List.concat ps), map e_mtime (List.concat ps))).
Proof.
  intros s parse mission center release level product solution version first last provider ep rel names ps token p es fuel K N url H F T (E1 & E2) L. unfold cmr. rewrite N. fold url.
  destruct (split_fuel ps fuel L) as (f & ->). rewrite (pages_all s ep rel url token ps (S f) K H F). cbn [pages]. rewrite header_cursor by apply H. rewrite T, E1, E2, (filter_page ep rel es K).
  destruct (url_list rel es); reflexivity.
Qed.
(** REFUTED: a page on which no granule has a link of the endpoint ends the search, whatever is on the pages after it *)
Theorem C125_unlinked_page_refuted : forall s parse mission center release level product solution version first last provider ep rel names ps token p es fuel, known ep rel ->
  cmr_product_shortname mission center release level version all_products = Ok names -> let url := query parse names level product solution version first last provider in
  holds s url token ps -> Forall (linked rel) ps -> then_ s url token ps (Ok p) -> p_entries p = Some es -> ~ linked rel es -> List.length ps < fuel ->
  cmr s parse fuel mission center release level product solution version first last provider ep = Some (Ok (map e_title (List.concat ps), url_list rel (List.concat ps), map e_mtime (List.concat ps))).
Proof.
  intros s parse mission center release level product solution version first last provider ep rel names ps token p es fuel K N url H F T E1 U L. unfold cmr. rewrite N. fold url.
  destruct (split_fuel ps fuel L) as (f & ->). rewrite (pages_all s ep rel url token ps (S f) K H F). cbn [pages]. rewrite header_cursor by apply H. rewrite T, E1, (filter_page ep rel es K).
  destruct (url_list rel es) eqn:X; [reflexivity|]. exfalso. apply U. apply linked_urls. congruence.
Qed.
(** a failure on any page loses the granules of the pages before; a response without entries is a ValueError, an endpoint that does not exist a KeyError (if a granule has a link) *)
Theorem C125_failures : forall s parse mission center release level product solution version first last provider ep rel names ps token fuel, known ep rel ->
  cmr_product_shortname mission center release level version all_products = Ok names -> let url := query parse names level product solution version first last provider in
  holds s url token ps -> Forall (linked rel) ps -> List.length ps < fuel ->
  (forall e, then_ s url token ps (Err e) -> cmr s parse fuel mission center release level product solution version first last provider ep = Some (Err e)) /\
  (forall p, then_ s url token ps (Ok p) -> p_entries p = None -> cmr s parse fuel mission center release level product solution version first last provider ep = Some (Err ValueError)).
Proof.
  intros s parse mission center release level product solution version first last provider ep rel names ps token fuel K N url H F L. unfold cmr. rewrite N. fold url.
  destruct (split_fuel ps fuel L) as (f & ->). rewrite (pages_all s ep rel url token ps (S f) K H F). cbn [pages]. rewrite header_cursor by apply H. split.
  - intros e T. now rewrite T.
  - intros p T E. rewrite T, E. reflexivity.
Qed.
Theorem C125_unknown_endpoint : forall s parse mission center release level product solution version first last provider ep names p es fuel, (forall rel, ~ known ep rel) ->
  cmr_product_shortname mission center release level version all_products = Ok names -> s (mkrequest (query parse names level product solution version first last provider) None) = Ok p -> p_entries p = Some es -> 0 < fuel ->
  cmr s parse fuel mission center release level product solution version first last provider ep = Some (if existsb (fun e => negb (List.length (e_links e) =? 0)) es then Err KeyError else Ok ([], [], [])).
Proof.
  intros s parse mission center release level product solution version first last provider ep names p es fuel U N E P L. unfold cmr. rewrite N. destruct fuel as [|f]; [lia|]. cbn [pages]. cbn [header]. rewrite E, P, (C62_unknown_endpoint es ep U).
  destruct (existsb _ es); reflexivity.
Qed.
(** a mission, level, centre and release that do not go together: an exception, and the server is not asked *)
Theorem C125_unavailable : forall s parse fuel mission center release level product solution version first last provider ep, ~ available mission level center release ->
  cmr s parse fuel mission center release level product solution version first last provider ep = Some (Err OtherExn) /\
  forall matches, cmr_metadata s mission center release level version provider ep matches = Err OtherExn.
Proof.
  intros s parse fuel mission center release level product solution version first last provider ep A. unfold cmr, cmr_metadata.
  destruct (cmr_product_shortname mission center release level version all_products) as [names|e] eqn:E; [exfalso; apply A; apply (C75_available mission center release level version all_products); eauto|].
  unfold cmr_product_shortname in E. destruct (find _ _) as [[[[[? ?] ?] ?] ?]|]; [discriminate|]. injection E as <-. split; reflexivity.
Qed.
(** more requests allowed: the same result *)
Theorem C125_steps : forall s parse f1 f2 mission center release level product solution version first last provider ep r, f1 <= f2 ->
  cmr s parse f1 mission center release level product solution version first last provider ep = Some r -> cmr s parse f2 mission center release level product solution version first last provider ep = Some r.
Proof.
  intros s parse f1 f2 mission center release level product solution version first last provider ep r L. unfold cmr. destruct (cmr_product_shortname _ _ _ _ _ _) as [names|e]; [|auto].
  generalize (query parse names level product solution version first last provider) as url. intros url. generalize (@None string) as a. generalize (@nil string, @nil string, @nil (option Z)) as acc.
  revert f2 L. induction f1 as [|f1 IH]; intros f2 L acc a H; [discriminate|]. destruct f2 as [|f2]; [lia|]. cbn [pages] in *. destruct (s _) as [p|e]; [|exact H].
  destruct (cmr_filter_json (p_entries p) ep) as [[n u|n u m]|e]; [exact H| |exact H]. destruct u as [|u0 u]; [exact H|]. destruct (search_after p) as [t|]; [|exact H]. destruct acc as [[n0 u1] m0]. apply IH; [lia|exact H].
Qed.
(** REFUTED: the search does not end when the server gives granules and a header for ever, as for a header that is empty, or one that leads back *)
Theorem C125_endless_refuted : forall s parse fuel mission center release level product solution version first last provider ep rel names, known ep rel ->
  cmr_product_shortname mission center release level version all_products = Ok names -> let url := query parse names level product solution version first last provider in
  (forall (reached : option string -> Prop), reached None -> (forall a, reached a -> exists p es t, s (mkrequest url a) = Ok p /\ page_of (Some t) p es /\ linked rel es /\ (reached (Some t) \/ t = ""%string)) ->
    cmr s parse fuel mission center release level product solution version first last provider ep = None) /\
  (forall p es, s (mkrequest url None) = Ok p -> page_of (Some ""%string) p es -> linked rel es -> cmr s parse fuel mission center release level product solution version first last provider ep = None).
Proof.
  intros s parse fuel mission center release level product solution version first last provider ep rel names K N url.
  assert (G : forall (reached : option string -> Prop), reached None -> (forall a, reached a -> exists p es t, s (mkrequest url a) = Ok p /\ page_of (Some t) p es /\ linked rel es /\ (reached (Some t) \/ t = ""%string)) ->
    cmr s parse fuel mission center release level product solution version first last provider ep = None).
  { intros reached R0 ST. unfold cmr. rewrite N. fold url. assert (X : forall fuel a acc, reached (header a) -> pages s ep url fuel a acc = None).
    { clear fuel. induction fuel as [|f IH]; intros a acc R; [reflexivity|]. cbn [pages]. destruct (ST _ R) as (p & es & t & E & (P1 & P2) & LK & NX). rewrite E, P1, (filter_page ep rel es K), P2.
      apply linked_urls in LK. destruct (url_list rel es) as [|u0 u]; [congruence|]. destruct acc as [[n1 u1] m1]. apply IH. destruct t as [|c t]; [exact R0|]. destruct NX as [NX|NX]; [exact NX|discriminate]. }
    now apply X. }
  split; [exact G|]. intros p es E P L. apply (G (fun a => a = None)); [reflexivity|]. intros a ->. exists p, es, ""%string. auto.
Qed.

(** ** the query *)
Lemma app_assoc_s (a b c : string) : ((a ++ b) ++ c = a ++ (b ++ c))%string.
Proof. induction a; cbn; congruence. Qed.
Lemma concat_cons a l : l <> [] -> String.concat "&" (a :: l) = (a ++ "&" ++ String.concat "&" l)%string.
Proof. destruct l; [congruence|reflexivity]. Qed.
(** the parameters of the request: the provider, the order of the granules, the short names of all collections of the mission, level, centre and release, the dates and the names of the granules *)
Theorem C125_query : forall parse names level product solution version first last provider,
  query parse names level product solution version first last provider = ("https://cmr.earthdata.nasa.gov/search/granules.json?" ++ String.concat "&"
    (app ["provider=" ++ provider; "sort_key[]=start_date"; "sort_key[]=producer_granule_id"; "page_size=2000"] (app (map (fun n => "short_name=" ++ n) names)
     ["temporal=" ++ date_text parse first ++ "," ++ date_text parse last; "options[readable_granule_name][pattern]=true"; "options[spatial][or]=true";
      "readable_granule_name[]=" ++ cmr_readable_granules (match product with Some p => p | None => "None" end) level solution version])))%string.
Proof.
  intros parse names level product solution version first last provider. unfold query. set (tail := ["temporal=" ++ _; _; _; _]%string).
  assert (X : forall names, (fold_right (fun n t => "&short_name=" ++ n ++ t) ("&temporal=" ++ date_text parse first ++ "," ++ date_text parse last ++ "&options[readable_granule_name][pattern]=true" ++ "&options[spatial][or]=true" ++
    "&readable_granule_name[]=" ++ cmr_readable_granules (match product with Some p => p | None => "None" end) level solution version) names = "&" ++ String.concat "&" (map (fun n => "short_name=" ++ n)%string names ++ tail)%list)%string).
  { clear names. induction names as [|n names IH]; cbn [fold_right map app].
    - unfold tail. cbn [String.concat]. cbn [append]. rewrite !app_assoc_s. reflexivity.
    - rewrite IH, (concat_cons _ (map _ names ++ tail)%list) by (unfold tail; destruct names; discriminate). cbn [append]. rewrite ?app_assoc_s. reflexivity. }
  rewrite X. cbn [app]. rewrite !concat_cons by (try discriminate; unfold tail; destruct names; discriminate). cbn [append]. rewrite ?app_assoc_s. reflexivity.
Qed.
(** dates: as they are read, or nothing.  REFUTED: a date that cannot be read is not reported: the text None is sent *)
Theorem C125_dates : forall parse t u, t <> ""%string -> (parse t = Some u -> date_text parse (Some t) = u) /\ (parse t = None -> date_text parse (Some t) = "None"%string) /\ date_text parse None = ""%string /\ date_text parse (Some ""%string) = ""%string.
Proof. intros parse t u N. unfold date_text. destruct t; [congruence|]. repeat split; intros H; now rewrite H. Qed.
(** the granules asked for are those of the product, solution and version (names of Level-2 granules).  REFUTED: without a product the query is for names that begin with None *)
Theorem C125_granules : forall product solution version name, plain (chars solution) -> plain (chars version) ->
  (plain (chars product) -> glob (chars (cmr_readable_granules product "L2" solution version)) name <-> l2_name product (if String.eqb product "GSM" then solution else "BC01"%string) version name) /\
  (glob (chars (cmr_readable_granules "None" "L2" solution version)) name -> exists r, name = chars "None-2_" ++ r).
Proof.
  intros product solution version name P1 P2. split.
  - intros P. now apply C75_granules.
  - intros G. apply (C75_granules "None" solution version name) in G; [|split; cbn; intuition discriminate|exact P1|exact P2]. destruct G as (a & b & c & d & e & r & _ & _ & _ & _ & _ & ->). eexists. reflexivity.
Qed.
(** the documents of the collections: one request; all links of the endpoint, in the order of the response, that match the pattern *)
Theorem C125_metadata : forall s mission center release level version provider ep rel names matches p es, known_meta ep rel ->
  cmr_product_shortname mission center release level version all_products = Ok names ->
  s (mkrequest ("https://cmr.earthdata.nasa.gov/search/collections.json?" ++ String.concat "&" (("provider=" ++ provider)%string :: map (fun n => "short_name=" ++ n)%string names))%string None) = Ok p -> p_entries p = Some es ->
  cmr_metadata s mission center release level version provider ep matches =
    Ok (filter (match matches with Some f => f | None => fun _ => true end) (map snd (filter (fun l => String.eqb (fst l) rel) (flat_map e_links es)))).
Proof.
  intros s mission center release level version provider ep rel names matches p es K N E P. unfold cmr_metadata. rewrite N. cbn [bind].
  assert (X : collections_query names provider = ("https://cmr.earthdata.nasa.gov/search/collections.json?" ++ String.concat "&" (("provider=" ++ provider)%string :: map (fun n => "short_name=" ++ n)%string names))%string).
  { unfold collections_query. assert (Y : forall names x, (x ++ fold_right (fun n t => "&short_name=" ++ n ++ t) "" names = String.concat "&" (x :: map (fun n => "short_name=" ++ n) names))%string).
    { clear. induction names as [|n names IH]; intros x; cbn [fold_right map]; [cbn; induction x; cbn; congruence|]. rewrite concat_cons by discriminate. rewrite <- IH. cbn [append]. rewrite ?app_assoc_s. reflexivity. }
    rewrite <- Y. cbn [append]. reflexivity. }
  rewrite X, E. cbn [bind]. rewrite P, (C62_metadata es ep rel K). cbn [bind]. destruct matches as [f|]; [reflexivity|]. f_equal. symmetry. clear. induction (map snd _) as [|x l IH]; cbn; congruence.
Qed.
(** the header is found whatever its case *)
Theorem C125_header : forall before after name v es, lower name = "cmr-search-after"%string -> Forall (fun h => lower (fst h) <> "cmr-search-after"%string) before ->
  search_after (mkresponse (before ++ (name, v) :: after) es) = Some v.
Proof.
  intros before after name v es H F. unfold search_after. cbn [p_headers]. induction F as [|h l N F IH]; cbn [app find fst]; [rewrite H; reflexivity|]. rewrite (proj2 (String.eqb_neq _ _) N). exact IH.
Qed.

(** an example: three granules on two pages *)
Definition rel_data : string := "http://esipfed.org/ns/fedsearch/1.1/data#".
Definition granule (n : string) : entry := mkentry n (Some 0%Z) [(rel_data, n)].
Definition two_pages : server := fun r => match r_after r with
  | None => Ok (mkresponse [("CMR-Search-After", "1")]%string (Some [granule "a"; granule "b"]))
  | Some a => if String.eqb a "1" then Ok (mkresponse [("CMR-Search-After", "2")]%string (Some [granule "c"])) else Ok (mkresponse [] (Some [])) end.
Definition two_tokens (i : nat) : string := match i with 0 => "1" | _ => "2" end.
Example C125_example : (forall url, holds two_pages url two_tokens [[granule "a"; granule "b"]; [granule "c"]] /\ then_ two_pages url two_tokens [[granule "a"; granule "b"]; [granule "c"]] (Ok (mkresponse [] (Some [])))) /\
  Forall (fun es => es <> [] /\ Forall (has_link rel_data) es) [[granule "a"; granule "b"]; [granule "c"]] /\ known "data" rel_data /\
  cmr_product_shortname "grace-fo" "GFZ" "RL06" "L2" "0" all_products = Ok ["GRACEFO_L2_GFZ_MONTHLY_0060"%string] /\
  cmr two_pages (fun _ => None) 3 "grace-fo" "GFZ" "RL06" "L2" (Some "GSM"%string) "BA01" "0" None None "POCLOUD" "data" = Some (Ok (["a"; "b"; "c"], ["a"; "b"; "c"], [Some 0%Z; Some 0%Z; Some 0%Z]))%string.
Proof.
  split; [|split; [|split; [left; split; reflexivity|split; [reflexivity|vm_compute; reflexivity]]]].
  - intros url. split; [split|reflexivity]. { intros [|i]; discriminate. } intros [|[|i]] es H; cbn in H; [| |destruct i; discriminate]; injection H as <-; eexists; (split; [reflexivity|split; reflexivity]).
  - assert (G : forall n, has_link rel_data (granule n)) by (intros n; exists n; left; reflexivity). repeat constructor; try discriminate; apply G.
Qed.
