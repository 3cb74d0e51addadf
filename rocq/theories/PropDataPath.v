(** C143: paths of the data of the package and optional dependencies. *)
From Coq Require Import List Bool String Ascii.
From Verif Require Import Base DataPathModel.
Import ListNotations.
Close Scope Z_scope.
Open Scope string_scope.

(** Specification: the names of the folders and of the file in a text, as words between slashes. *)
Inductive Words : string -> list string -> Prop :=
| WNil : Words "" []
| WSkip : forall s l, Words s l -> Words (String "/" s) l
| WDotEnd : Words "." []
| WDot : forall s l, Words s l -> Words ("./" ++ s) l
| WLast : forall w, (forall i, get i w <> Some "/"%char) -> w <> "" -> w <> "." -> Words w [w]
| WMore : forall w s l, (forall i, get i w <> Some "/"%char) -> w <> "" -> w <> "." -> Words s l -> Words (w ++ String "/" s) (w :: l).
Definition starts_with_slash (s : string) : Prop := exists r, s = String "/" r.

Lemma append_nil : forall x, x ++ "" = x.
Proof. induction x; cbn; congruence. Qed.
Lemma append_assoc : forall x y z, (x ++ y) ++ z = x ++ (y ++ z).
Proof. induction x; intros; cbn; congruence. Qed.
Lemma pieces_word : forall w cur, (forall i, get i w <> Some "/"%char) -> pieces w cur = [cur ++ w].
Proof.
  induction w as [|c w IH]; intros cur H; cbn [pieces]; [rewrite append_nil; reflexivity|].
  destruct (Ascii.eqb_spec c "/") as [->|N]; [exfalso; exact (H 0 eq_refl)|]. rewrite IH; [rewrite append_assoc; reflexivity|]. intros i. exact (H (S i)).
Qed.
Lemma pieces_more : forall a b cur, pieces (a ++ String "/" b) cur = (pieces a cur ++ pieces b "")%list.
Proof. induction a as [|c a IH]; intros b cur; [reflexivity|]. cbn [append pieces]. destruct (Ascii.eqb c "/"); cbn [app]; rewrite IH; reflexivity. Qed.
Lemma parts_slash : forall a b, parts (a ++ String "/" b) = (parts a ++ parts b)%list.
Proof. intros. unfold parts. rewrite pieces_more, filter_app. reflexivity. Qed.
Lemma parts_word : forall w, (forall i, get i w <> Some "/"%char) -> w <> "" -> w <> "." -> parts w = [w].
Proof.
  intros w H N1 N2. unfold parts. rewrite pieces_word by exact H. cbn [append filter]. unfold keep.
  apply String.eqb_neq in N1, N2. rewrite N1, N2. reflexivity.
Qed.
Theorem C143_words : forall s l, Words s l -> parts s = l.
Proof.
  intros s l H. induction H as [|s l H IH| |s l H IH|w H N1 N2|w s l H N1 N2 HW IH].
  - reflexivity.
  - change (String "/" s) with ("" ++ String "/" s). rewrite parts_slash. exact IH.
  - reflexivity.
  - change ("./" ++ s) with ("." ++ String "/" s). rewrite parts_slash. exact IH.
  - apply parts_word; assumption.
  - rewrite parts_slash, IH, parts_word by assumption. reflexivity.
Qed.
Lemma absolute_iff : forall s, absolute s = true <-> starts_with_slash s.
Proof.
  intros [|c s]; cbn; split; try discriminate.
  - intros [r K]; discriminate.
  - intros H. apply Ascii.eqb_eq in H. subst. eexists; reflexivity.
  - intros [r K]. injection K as -> _. reflexivity.
Qed.
Lemma joinpath_relative : forall l base, Forall (fun s => ~ starts_with_slash s) l -> joinpath base l = (base ++ flat_map parts l)%list.
Proof.
  induction l as [|s l IH]; intros base H; cbn; [rewrite app_nil_r; reflexivity|]. inversion H as [|? ? H1 H2]; subst. fold (joinpath).
  destruct (absolute s) eqn:A; [apply absolute_iff in A; contradiction|]. change (joinpath (base ++ parts s) l = (base ++ parts s ++ flat_map parts l)%list).
  rewrite IH by exact H2. rewrite app_assoc. reflexivity.
Qed.
(** Relative names lead to a file below the folder of the package, by the words of the names in order. *)
Theorem C143_relative : forall package l ws, Forall2 Words l ws -> Forall (fun s => ~ starts_with_slash s) l ->
  get_data_path package (AList l) = Some (package ++ List.concat ws)%list.
Proof.
  intros package l ws H R. cbn. rewrite joinpath_relative by exact R. f_equal. f_equal. clear R.
  induction H as [|s w l ws H _ IH]; [reflexivity|]. cbn. rewrite IH, (C143_words _ _ H). reflexivity.
Qed.
Lemma parts_concat : forall l, parts (String.concat "/" l) = flat_map parts l.
Proof.
  induction l as [|s [|t l] IH]; [reflexivity|cbn; rewrite app_nil_r; reflexivity|].
  change (String.concat "/" (s :: t :: l)) with (s ++ String "/" (String.concat "/" (t :: l))). rewrite parts_slash, IH. reflexivity.
Qed.
(** A list of names and the text of the same names with slashes lead to the same file. *)
Theorem C143_text : forall package s l, s <> "" -> Forall (fun x => ~ starts_with_slash x) (s :: l) ->
  get_data_path package (AText (String.concat "/" (s :: l))) = get_data_path package (AList (s :: l)).
Proof.
  intros package s l N H. unfold get_data_path. f_equal. rewrite (joinpath_relative (s :: l)) by exact H.
  rewrite joinpath_relative; [cbn [flat_map]; rewrite app_nil_r, parts_concat; reflexivity|]. constructor; [|constructor].
  inversion H as [|? ? H1 _]; subst. intros [r K]. apply H1. destruct s as [|c s]; [contradiction|].
  destruct l as [|t l]; [exists r; exact K|]. change (String.concat "/" (String c s :: t :: l)) with (String c (s ++ "/" ++ String.concat "/" (t :: l))) in K.
  injection K as -> _. exists s. reflexivity.
Qed.
(** An absolute name starts again: the folder of the package and the names before it do not count. *)
Theorem C143_absolute : forall package l a m, starts_with_slash a ->
  get_data_path package (AList (l ++ a :: m)) = get_data_path [] (AList (a :: m)).
Proof.
  intros package l a m A. apply absolute_iff in A. unfold get_data_path, joinpath. rewrite fold_left_app. cbn [fold_left]. rewrite A. reflexivity.
Qed.
(** A pathlib.Path, as documented: no path but None. *)
Theorem C143_path_refuted : forall package s, get_data_path package (APathObject s) = None.
Proof. reflexivity. Qed.
(** The words are not resolved: names with ".." lead out of the package. *)
Theorem C143_outside_refuted : forall package x, parts x = [x] -> get_data_path package (AList [".."; x]) = Some (package ++ [".."; x])%list \/ starts_with_slash x.
Proof.
  intros package x H. destruct (absolute x) eqn:A; [right; apply absolute_iff; exact A|left].
  cbn. rewrite A, H, <- app_assoc. reflexivity.
Qed.

(** A missing optional dependency does not stop the import of the package; the first use of a name of it is an AttributeError, not an ImportError. *)
Theorem C143_optional : forall world l, (forall n, In n l -> forall e, world n <> Broken e) ->
  exists ms, head_of_module world l = inl ms /\ Forall2 (fun n m => match world n with
    | Found names' => real m = true /\ forall x, attribute m x = if existsb (String.eqb x) names' then Ok tt else Err AttributeError
    | _ => real m = false /\ forall x, attribute m x = Err AttributeError end) l ms.
Proof.
  intros world l. induction l as [|n l IH]; intros H; [exists []; split; [reflexivity|constructor]|].
  destruct IH as (ms & E & F); [intros; apply H; right; assumption|]. cbn [head_of_module]. unfold import_dependency.
  destruct (world n) eqn:W.
  - rewrite E. eexists. split; [reflexivity|]. constructor; [rewrite W; split; reflexivity|exact F].
  - rewrite E. eexists. split; [reflexivity|]. constructor; [rewrite W; split; reflexivity|exact F].
  - exfalso. exact (H n (or_introl eq_refl) e W).
Qed.
(** Only on demand is it an ImportError; a dependency that is there is the same either way. *)
Theorem C143_demand : forall world n, (import_dependency world n true = inr ImportError <-> world n = NotFound) /\
  (world n <> NotFound -> import_dependency world n true = import_dependency world n false) /\ import_dependency world n false <> inr ImportError.
Proof.
  intros world n. unfold import_dependency. destruct (world n); (split; [split; intros; congruence|]); split; congruence.
Qed.
(** A dependency that is installed but fails with another exception stops the import of the package. *)
Theorem C143_broken : forall world l n r e, (forall x, In x l -> forall e', world x <> Broken e') -> world n = Broken e -> head_of_module world (l ++ n :: r) = inr (Other e).
Proof.
  intros world l n r e. induction l as [|x l IH]; intros H W; cbn [app head_of_module]; unfold import_dependency.
  - rewrite W. reflexivity.
  - assert (IH' := IH (fun y I => H y (or_intror I)) W). destruct (world x) eqn:E; [rewrite IH'; reflexivity|rewrite IH'; reflexivity|].
    exfalso. exact (H x (or_introl eq_refl) e0 E).
Qed.

(** Instances. *)
Example love_numbers : get_data_path ["home"; "gravity_toolkit"] (AList ["data"; "love_numbers"]) = Some ["home"; "gravity_toolkit"; "data"; "love_numbers"]
  /\ Forall2 Words ["data"; "love_numbers"] [["data"]; ["love_numbers"]].
Proof.
  split; [reflexivity|].
  assert (G : forall w, w = "data" \/ w = "love_numbers" -> forall i, get i w <> Some "/"%char).
  { intros w [-> | ->] i; do 13 (destruct i as [|i]; [discriminate|]); destruct i; discriminate. }
  repeat constructor; try discriminate; apply G; auto.
Qed.
Example nested : get_data_path ["p"] (AText "data//./a/b.txt") = Some ["p"; "data"; "a"; "b.txt"] /\ get_data_path ["p"] (AList ["x"; "/etc/y"; "z"]) = Some ["etc"; "y"; "z"].
Proof. split; reflexivity. Qed.
Definition bare (n : string) : import_outcome := if n =? "netCDF4" then Found ["Dataset"] else if n =? "sparse" then Broken ValueError else NotFound.
Example optional_instance : head_of_module bare ["geoid_toolkit"; "h5py"; "netCDF4"] = inl [mkmodule false []; mkmodule false []; mkmodule true ["Dataset"]] /\
  head_of_module bare ["h5py"; "sparse"] = inr (Other ValueError).
Proof. split; reflexivity. Qed.
