(** Model of the queries of NASA's Common Metadata Repository: utilities.cmr (utilities.py 1777-1910) and cmr_metadata (1913-2008) with isoformat (312-327).  Short names, patterns of
    granule names and the filters of the responses are those of UtilModel (1522-1774).  The server is a function of the url and of the header CMR-Search-After; an exception stands
    for any failure of the connection, or of reading the response as JSON.  Cookies, certificates and logging are left out. *)
From Coq Require Import Reals Ascii String.
From Verif Require Import Base UtilModel.
Close Scope Z_scope.
Close Scope R_scope.
Open Scope nat_scope.
Open Scope string_scope.
Record request := mkrequest { r_url : string; r_after : option string }.
(** [p_entries]: None when 'feed' or 'entry' is missing *)
Record response := mkresponse { p_headers : list (string * string); p_entries : option (list entry) }.
Definition server := request -> res response.
(** str.lower of a text of ASCII characters *)
Definition lower_ascii (c : ascii) : ascii := (let n := nat_of_ascii c in if (65 <=? n) && (n <=? 90) then ascii_of_nat (n + 32) else c)%nat.
Fixpoint lower (s : string) : string := match s with EmptyString => EmptyString | String c r => String (lower_ascii c) (lower r) end.
(** 1898-1899: dict of an email.message gives for a name, in any case, the first of the headers of this name *)
Definition search_after (p : response) : option string := option_map snd (find (fun h => String.eqb (lower (fst h)) "cmr-search-after") (p_headers p)).
(** 1893: the header is sent if it is not empty *)
Definition header (after : option string) : option string := match after with Some "" => None | _ => after end.
(** 1890-1908; None: still asking after [fuel] requests *)
Definition found := (list string * list string * list (option Z))%type.
Fixpoint pages (s : server) (endpoint url : string) (fuel : nat) (after : option string) (acc : found) : option (res found) :=
  match fuel with
  | 0 => None
  | S f =>
      match s (mkrequest url (header after)) with
      | Err e => Some (Err e)
      | Ok p =>
          match cmr_filter_json (p_entries p) endpoint with
          | Err e => Some (Err e)
          | Ok (Two _ _) => Some (Err ValueError)
          | Ok (Three ids urls mtimes) =>
              match urls, search_after p with
              | [], _ | _, None => Some (Ok acc)
              | _, Some t => let '(n, u, m) := acc in pages s endpoint url f (Some t) ((n ++ ids)%list, (u ++ urls)%list, (m ++ mtimes)%list)
              end
          end
      end
  end.
(** 1873-1875 with 312-327: [parse] is dateutil.parser.parse(text.rstrip()).isoformat(), None when the text is not a date *)
Definition date_text (parse : string -> option string) (d : option string) : string :=
  match d with None | Some "" => "" | Some t => match parse t with Some u => u | None => "None" end end.
Definition all_products : list string := ["GAA"; "GAB"; "GAC"; "GAD"; "GSM"]%list.
(** 1855-1883 *)
Definition query (parse : string -> option string) (names : list string) (level : string) (product : option string) (solution version : string) (first last : option string) (provider : string) : string :=
  "https://cmr.earthdata.nasa.gov/search/granules.json" ++ "?provider=" ++ provider ++ "&sort_key[]=start_date" ++ "&sort_key[]=producer_granule_id" ++ "&page_size=2000" ++
  fold_right (fun n t => "&short_name=" ++ n ++ t) ("&temporal=" ++ date_text parse first ++ "," ++ date_text parse last ++ "&options[readable_granule_name][pattern]=true" ++ "&options[spatial][or]=true" ++
    "&readable_granule_name[]=" ++ cmr_readable_granules (match product with Some p => p | None => "None" end) level solution version) names.
Definition cmr (s : server) (parse : string -> option string) (fuel : nat) (mission center release level : string) (product : option string) (solution version : string)
  (first last : option string) (provider endpoint : string) : option (res found) :=
  match cmr_product_shortname mission center release level version all_products with
  | Err e => Some (Err e)
  | Ok names => pages s endpoint (query parse names level product solution version first last provider) fuel None ([], [], [])%list
  end.
(** 1978-2008; [matches]: re.search(pattern, url); a pattern that is the empty text is None here *)
Definition collections_query (names : list string) (provider : string) : string :=
  "https://cmr.earthdata.nasa.gov/search/collections.json" ++ "?provider=" ++ provider ++ fold_right (fun n t => "&short_name=" ++ n ++ t) "" names.
Definition cmr_metadata (s : server) (mission center release level version provider endpoint : string) (matches : option (string -> bool)) : res (list string) :=
  do names <- cmr_product_shortname mission center release level version all_products;
  do p <- s (mkrequest (collections_query names provider) None);
  do urls <- cmr_metadata_json (p_entries p) endpoint;
  Ok (match matches with Some f => filter f urls | None => urls end).
