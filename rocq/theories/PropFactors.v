(** Properties C45 and C46: the degree dependent factors of clenshaw_summation and stokes_summation (units and smoothing). *)
From Coq Require Import Reals Lra Lia String.
From Coquelicot Require Import Coquelicot.
From Verif Require Import Base UnitsModel GaussModel PropUnits PropGauss SummationModel.
Close Scope Z_scope.
Open Scope R_scope.

(** the Earth of the default units object *)
Definition earth : units := units_init None 637813700 (1 / 298.257223563).
(** Wahr et al. (1998): factor of a unit at degree l with Love numbers h, k, ll *)
Inductive wahr (l : nat) (h k ll : R) : string -> R -> Prop :=
| w_norm : wahr l h k ll "norm" 1
| w_cmwe : wahr l h k ll "cmwe" (rho_e earth * rad_e earth * (2 * INR l + 1) / (3 * (1 + k)))
| w_mmwe : wahr l h k ll "mmwe" (10 * (rho_e earth * rad_e earth * (2 * INR l + 1) / (3 * (1 + k))))
| w_gh : wahr l h k ll "mmGH" (10 * rad_e earth)
| w_cu : wahr l h k ll "mmCU" (10 * rad_e earth * h / (1 + k))
| w_ch : wahr l h k ll "mmCH" (10 * rad_e earth * ll / (1 + k))
| w_vcu : wahr l h k ll "cmVCU" (rad_e earth * (2 * INR l + 1) / 2)
| w_mvcu : wahr l h k ll "mVCU" (rad_e earth * (2 * INR l + 1) / 2 / 100)
| w_gal : wahr l h k ll "microGal" (10 ^ 6 * GM * (INR l + 1) / rad_e earth ^ 2)
| w_mbar : wahr l h k ll "mbar" (g_wmo / 1000 * (rho_e earth * rad_e earth * (2 * INR l + 1) / (3 * (1 + k))))
| w_pa : wahr l h k ll "Pa" (100 * (g_wmo / 1000 * (rho_e earth * rad_e earth * (2 * INR l + 1) / (3 * (1 + k))))).

(** custom factors are used as they are; named units and their codes give the factors of Wahr et al. for every degree *)
Theorem C45_factors : forall lm hl kl ll, (lm < List.length hl)%nat -> (lm < List.length kl)%nat -> (lm < List.length ll)%nat ->
  (forall fs, degree_factor lm (UCustom fs) (Some (hl, kl, ll)) = Ok fs) /\
  (forall z name, unit_code z name -> degree_factor lm (UCode z) (Some (hl, kl, ll)) = degree_factor lm (UName name) (Some (hl, kl, ll))) /\
  (forall name l v h k ell, (l <= lm)%nat -> nth_error hl l = Some h -> nth_error kl l = Some k -> nth_error ll l = Some ell -> wahr l h k ell name v ->
     exists fs, degree_factor lm (UName name) (Some (hl, kl, ll)) = Ok fs /\ nth_error fs l = Some v) /\
  (forall name, (forall l h k ell v, ~ wahr l h k ell name v) -> degree_factor lm (UName name) (Some (hl, kl, ll)) = Err ValueError) /\
  degree_factor lm UOther (Some (hl, kl, ll)) = Err ValueError.
Proof.
  intros lm hl kl ll H1 H2 H3. set (u := units_init (Some lm) a_default flat_default).
  assert (C : callable u lm hl kl ll) by (repeat split; auto).
  destruct (C39_get_values u lm hl kl ll true false C) as (hh & E & V & N).
  assert (RE : rad_e u = rad_e earth). { unfold rad_e, u, earth, units_init, a_default, flat_default. cbn [a_axis flat]. do 2 f_equal. lra. }
  assert (RH : rho_e u = rho_e earth). { unfold rho_e. rewrite RE. reflexivity. }
  assert (K : forall name, degree_factor lm (UName name) (Some (hl, kl, ll)) = match UnitsModel.get hh name with Ok (Some d) => Ok d | Ok None => Err TypeError | Err e => Err e end).
  { intros name. unfold degree_factor. fold u. rewrite E. cbn [bind]. destruct (UnitsModel.get hh name) as [[d|]|]; reflexivity. }
  split; [reflexivity|]. split; [intros z name Hz; unfold degree_factor; rewrite (C40_documented_codes _ _ Hz); reflexivity|]. split.
  - intros name l v h k ell Ll Eh Ek El W. rewrite K. destruct (V l h k ell Ll Eh Ek El) as (V1 & V2 & V3 & V4 & V5 & V6 & V7 & V8 & V9 & V10 & V11).
    rewrite RE, RH in *. replace ((1 + k) / 1) with (1 + k) in * by field.
    destruct W; match goal with Q : got hh ?s l ?v |- exists fs, match UnitsModel.get hh ?s with _ => _ end = _ /\ nth_error fs l = Some ?v => destruct Q as (xs & -> & Q); eauto end.
  - split; [|reflexivity]. intros name NW. rewrite K. rewrite N; [reflexivity|]. cbn [In].
    intros Q. repeat (destruct Q as [Q|Q]; [subst name; eapply (NW 0%nat 0 0 0); constructor|]). exact Q.
Qed.
(** no smoothing for radius 0, otherwise the weights of Jekeli (floored at 2e-10 pi from degree 2 on) *)
Theorem C45_smoothing : forall RAD LMAX, (1 <= LMAX)%nat ->
  (RAD = 0 -> smoothing RAD LMAX = Ok (repeat 1 (LMAX + 1))) /\
  (forall b, / 10 ^ 10 <= RAD -> cos (RAD / 6371) <> 1 -> half_weight b RAD ->
   exists w, smoothing RAD LMAX = Ok w /\ List.length w = (LMAX + 1)%nat /\
   (forall l, (l <= 1)%nat -> nth_error w l = Some (jekeli b l)) /\
   (forall l, (2 <= l <= LMAX)%nat -> nth_error w l = Some (Rmax (jekeli b l) (2 * PI / 10 ^ 10)))).
Proof.
  intros RAD LMAX L1. unfold smoothing. split; [intros ->; destruct (Req_EM_T 0 0); [reflexivity|lra]|].
  intros b HR HC HB. destruct (Req_EM_T RAD 0) as [->|_]; [exfalso; assert (0 < / 10 ^ 10) by lra; lra|].
  destruct (C41_values RAD LMAX cut_default b HR L1 HC HB) as (wl & E & LW & A & B). rewrite E. cbn [bind]. eexists. split; [reflexivity|].
  split; [rewrite map_length; auto|]. pose proof PI_RGT_0 as P.
  split; intros l Ll.
  - rewrite nth_error_map, A by auto. cbn. f_equal. field. lra.
  - rewrite nth_error_map, B by auto. cbn [option_map]. f_equal. rewrite <- RmaxRmult by lra. f_equal. field. lra.
Qed.
Example C45_factors_nonvacuous : exists v fs, wahr 1 0 (1 / 2) 0 "mmwe" v /\ degree_factor 1 (UName "mmwe") (Some ([0; 0], [0; 1 / 2], [0; 0])) = Ok fs /\ nth_error fs 1 = Some v.
Proof.
  eexists. destruct (C45_factors 1 [0; 0] [0; 1 / 2] [0; 0]) as (_ & _ & V & _); [cbn; lia..|].
  edestruct (V "mmwe"%string 1%nat) as (fs & E & Q); [lia|reflexivity|reflexivity|reflexivity|constructor|]. exists fs. split; [constructor|]. split; [exact E|exact Q].
Qed.
