From Coq Require Import Sorted.
From Verif Require Import Base ReduceModel.
Open Scope Z_scope.

(** specification order: chronological order of periods *)
Definition period_lt (a b : period) : Prop :=
  let '((sy1, sd1), (ey1, ed1)) := a in let '((sy2, sd2), (ey2, ed2)) := b in
  sy1 < sy2 \/ sy1 = sy2 /\ (sd1 < sd2 \/ sd1 = sd2 /\
   (ey1 < ey2 \/ ey1 = ey2 /\ ed1 < ed2)).

Lemma period_ltb_spec a b : period_ltb a b = true <-> period_lt a b.
Proof.
  destruct a as [[a1 a2] [a3 a4]], b as [[b1 b2] [b3 b4]].
  unfold period_ltb, pair_ltb, pair_eqb, period_lt; cbn [fst snd].
  repeat rewrite ?orb_true_iff, ?andb_true_iff, ?Z.ltb_lt, ?Z.eqb_eq. lia.
Qed.

Lemma period_eqb_spec a b : period_eqb a b = true <-> a = b.
Proof.
  destruct a as [[a1 a2] [a3 a4]], b as [[b1 b2] [b3 b4]].
  unfold period_eqb, pair_eqb; cbn [fst snd].
  repeat rewrite ?andb_true_iff, ?Z.eqb_eq. split; [intros [[-> ->] [-> ->]]; reflexivity|].
  intros [= -> -> -> ->]; auto.
Qed.

Lemma period_trichotomy a b : period_lt a b \/ a = b \/ period_lt b a.
Proof.
  destruct a as [[a1 a2] [a3 a4]], b as [[b1 b2] [b3 b4]]. unfold period_lt.
  destruct (Z.lt_trichotomy a1 b1) as [H|[<-|H]]; [auto 6| |auto 6].
  destruct (Z.lt_trichotomy a2 b2) as [H|[<-|H]]; [auto 6| |auto 8].
  destruct (Z.lt_trichotomy a3 b3) as [H|[<-|H]]; [auto 8| |right; right; right; split; [reflexivity|auto 8]].
  destruct (Z.lt_trichotomy a4 b4) as [H|[<-|H]]; [auto 10|auto|do 3 right; split; [reflexivity|auto 10]].
Qed.

Lemma period_lt_trans a b c : period_lt a b -> period_lt b c -> period_lt a c.
Proof.
  destruct a as [[a1 a2] [a3 a4]], b as [[b1 b2] [b3 b4]], c as [[c1 c2] [c3 c4]]. unfold period_lt. lia.
Qed.
Lemma period_lt_irrefl a : ~ period_lt a a.
Proof. destruct a as [[a1 a2] [a3 a4]]. unfold period_lt. lia. Qed.

Lemma insert_in d l x : In x (insert_period d l) <-> x = d \/ In x l.
Proof.
  induction l as [|y t IH]; cbn; [intuition|].
  destruct (period_ltb d y); [cbn; intuition|].
  destruct (period_eqb d y) eqn:E; [apply period_eqb_spec in E; subst; cbn; intuition|].
  cbn. rewrite IH. intuition.
Qed.

Lemma insert_sorted d l : StronglySorted period_lt l -> StronglySorted period_lt (insert_period d l).
Proof.
  induction l as [|y t IH]; intros H; cbn; [repeat constructor|].
  inversion H as [|? ? Ht Hy]; subst.
  destruct (period_ltb d y) eqn:E.
  - apply period_ltb_spec in E. constructor; [exact H|]. constructor; [exact E|].
    eapply Forall_impl; [|exact Hy]. intros z Hz. eapply period_lt_trans; eauto.
  - destruct (period_eqb d y) eqn:E2; [exact H|].
    constructor; [auto|]. apply Forall_forall. intros z Hz. apply insert_in in Hz as [->|Hz].
    + destruct (period_trichotomy d y) as [A|[A|A]]; [|subst|exact A].
      * apply period_ltb_spec in A. congruence.
      * assert (period_eqb y y = true) by now apply period_eqb_spec. congruence.
    + rewrite Forall_forall in Hy. auto.
Qed.

Lemma sorted_set_in l x : In x (sorted_set l) <-> In x l.
Proof. induction l as [|y t IH]; cbn; [reflexivity|]. rewrite insert_in, IH. intuition. Qed.
Lemma sorted_set_sorted l : StronglySorted period_lt (sorted_set l).
Proof. induction l as [|y t IH]; cbn; [constructor|]. now apply insert_sorted. Qed.

Section P.
  Context {F : Type}.
  Variable pd : F -> option period.
  Variable pv : F -> option Z.

  Lemma first_max_spec (best : F * Z) l :
    exists v, In (first_max best l, v) (best :: l) /\ forall x, In x (best :: l) -> snd x <= v.
  Proof.
    revert best; induction l as [|x t IH]; intros best; cbn [first_max].
    - exists (snd best). split; [left; destruct best; reflexivity|]. intros x [<-|[]]; lia.
    - destruct (Z.ltb_spec (snd best) (snd x)) as [L|L].
      + destruct (IH x) as (v & I & B). exists v. split; [right; exact I|].
        intros z [<-|Hz]; [|auto]. pose proof (B x (or_introl eq_refl)). lia.
      + destruct (IH best) as (v & I & B). exists v. split.
        * destruct I as [I|I]; [left|right; right]; exact I.
        * intros z [<-|[<-|Hz]]; [apply B; left; reflexivity| |apply B; now right].
          pose proof (B best (or_introl eq_refl)). lia.
  Qed.

  Lemma with_date_in d (gs : list (period * F)) f : In f (with_date d gs) <-> In (d, f) gs.
  Proof.
    unfold with_date. rewrite in_map_iff. split.
    - intros ([d' f'] & <- & H). apply filter_In in H as [H E]. apply period_eqb_spec in E.
      cbn in *; subst. exact H.
    - intros H. exists (d, f). split; [reflexivity|]. apply filter_In. split; [exact H|].
      now apply period_eqb_spec.
  Qed.

  (** what is picked: a granule of that date, of maximal version *)
  Lemma pick_spec d (gs : list (period * F)) g : pick pv d gs = Ok g ->
    In (d, g) gs /\
    (forall f, In (d, f) gs -> with_date d gs = [g] \/
       exists vf vg, pv f = Some vf /\ pv g = Some vg /\ vf <= vg).
  Proof.
    unfold pick. destruct (with_date d gs) as [|x [|y t]] eqn:E; [discriminate| |].
    - intros [= <-]. split; [apply with_date_in; rewrite E; left; reflexivity|]. auto.
    - destruct (pv x) as [vx|] eqn:Ex; [|discriminate]. cbn [pop bind].
      destruct (mapM _ (y :: t)) as [vs|] eqn:M; [|discriminate]. cbn [bind].
      intros [= <-]. destruct (first_max_spec (x, vx) vs) as (v & I & B).
      apply mapM_ok in M.
      assert (Hv : forall f v, In (f, v) ((x, vx) :: vs) -> pv f = Some v /\ In f (x :: y :: t)).
      { intros f v' [H|H]; [injection H as <- <-; split; [exact Ex|now left]|].
        clear - M H. induction M as [|a b l l' Ha Hr IH] in H |- *; [destruct H|].
        destruct H as [->|H].
        - destruct (pv a) as [w|] eqn:Ea; [|discriminate]. cbn in Ha. injection Ha as <- <-.
          split; [exact Ea|right; left; reflexivity].
        - destruct (IH H) as [H1 [H2|H2]]; split; auto; [left; exact H2|right; right; exact H2]. }
      assert (Hf : forall f, In f (x :: y :: t) -> exists vf, In (f, vf) ((x, vx) :: vs)).
      { intros f [<-|H]; [exists vx; now left|].
        clear - M H. induction M as [|a b l l' Ha Hr IH] in H |- *; [destruct H|].
        destruct H as [->|H].
        - destruct (pv f) as [w|] eqn:Ea; [|discriminate]. cbn in Ha. injection Ha as <-.
          exists w. right; left; reflexivity.
        - destruct (IH H) as [w [Hw|Hw]]; exists w; [left|right; right]; exact Hw. }
      destruct (Hv _ _ I) as [Hg1 Hg2]. split.
      + apply with_date_in. rewrite E. exact Hg2.
      + intros f Hf'. right. apply with_date_in in Hf'. rewrite E in Hf'.
        destruct (Hf f Hf') as [vf Hvf]. destruct (Hv _ _ Hvf) as [H1 _].
        exists vf, v. repeat split; auto. apply (B (f, vf)). exact Hvf.
  Qed.

  Lemma combine_dates gs dates : mapM (fun f => pop (pd f)) gs = Ok dates ->
    forall d f, In (d, f) (combine dates gs) <-> In f gs /\ pd f = Some d.
  Proof.
    intros H. apply mapM_ok in H. induction H as [|f d l l' Hf Hr IH]; intros d0 f0; cbn.
    - intuition.
    - rewrite IH. destruct (pd f) as [d'|] eqn:E; [|discriminate]. cbn in Hf. injection Hf as ->.
      split.
      + intros [[= <- <-]|[H1 H2]]; auto.
      + intros [[<-|H1] H2]; [left; congruence|right; auto].
  Qed.

  Lemma dates_in gs dates : mapM (fun f => pop (pd f)) gs = Ok dates ->
    forall d, In d dates <-> exists f, In f gs /\ pd f = Some d.
  Proof.
    intros H. apply mapM_ok in H. induction H as [|f d l l' Hf Hr IH]; intros d0; cbn.
    - split; [intros []|intros (f & [] & _)].
    - rewrite IH. destruct (pd f) as [d'|] eqn:E; [|discriminate]. cbn in Hf. injection Hf as ->.
      split.
      + intros [<-|(f0 & H1 & H2)]; eauto.
      + intros (f0 & [<-|H1] & H2); [left; congruence|right; eauto].
  Qed.

  Lemma reduce_spec gs out : reduce_by_date pd pv gs = Ok out ->
    exists ds, StronglySorted period_lt ds /\
      (forall d, In d ds <-> exists f, In f gs /\ pd f = Some d) /\
      Forall2 (fun d g => In g gs /\ pd g = Some d /\
         forall f, In f gs -> pd f = Some d -> f = g \/
           exists vf vg, pv f = Some vf /\ pv g = Some vg /\ vf <= vg) ds out.
  Proof.
    unfold reduce_by_date. destruct (mapM _ gs) as [dates|] eqn:E; [|discriminate]. cbn [bind].
    intros M. exists (sorted_set dates). split; [apply sorted_set_sorted|]. split.
    - intros d. rewrite sorted_set_in. now apply dates_in.
    - apply mapM_ok in M. eapply Forall2_impl; [|exact M]. cbn.
      intros d g Hp. apply pick_spec in Hp as [H1 H2].
      rewrite (combine_dates gs dates E) in H1. destruct H1 as [H1 H1'].
      repeat split; auto. intros f Hf Hd.
      assert (I : In (d, f) (combine dates gs)) by (rewrite (combine_dates gs dates E); auto).
      destruct (H2 f I) as [W|W]; [left|right; exact W].
      apply with_date_in in I. rewrite W in I. destruct I as [<-|[]]. reflexivity.
  Qed.

  (** totality *)
  Lemma reduce_total gs : (forall f, In f gs -> pd f <> None /\ pv f <> None) ->
    exists out, reduce_by_date pd pv gs = Ok out.
  Proof.
    intros H. unfold reduce_by_date.
    assert (exists dates, mapM (fun f => pop (pd f)) gs = Ok dates) as [dates E].
    { apply mapM_total. intros f Hf. destruct (H f Hf) as [H1 _]. destruct (pd f); [cbn; eauto|congruence]. }
    rewrite E. cbn [bind]. apply mapM_total. intros d Hd. rewrite sorted_set_in in Hd.
    apply (dates_in gs dates E) in Hd as (f0 & Hf0 & Hd).
    assert (All : forall f, In f (with_date d (combine dates gs)) -> pv f <> None).
    { intros f Hf. apply with_date_in, (combine_dates gs dates E) in Hf as [Hf _]. apply H; exact Hf. }
    assert (In f0 (with_date d (combine dates gs))) as I.
    { apply with_date_in. apply (combine_dates gs dates E). auto. }
    unfold pick. destruct (with_date d (combine dates gs)) as [|x [|y t]]; [destruct I|eauto|].
    destruct (pv x) as [vx|] eqn:Ex; [|exfalso; apply (All x); [now left|exact Ex]]. cbn [pop bind].
    destruct (mapM_total (fun f => do v <- pop (pv f); Ok (f, v)) (y :: t)) as [vs ->]; [|cbn; eauto].
    intros f Hf. destruct (pv f) as [v|] eqn:Ef; [cbn; eauto|].
    exfalso. apply (All f); [now right|exact Ef].
  Qed.
End P.
