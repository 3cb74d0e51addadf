(** Model of gravity_toolkit/gauss_weights.py (exact real arithmetic; hw equal to
    a multiple of the circumference, where numpy divides by zero, is excluded by
    the theorems). *)
From Coq Require Import Reals Lra.
From Verif Require Import Base.
Close Scope Z_scope.
Open Scope R_scope.

(** gauss_weights.py 74 *)
Definition rad_earth_km : R := 6371.
(** gauss_weights.py 80 *)
Definition gauss_b (hw : R) : R := ln 2 / (1 - cos (hw / rad_earth_km)).

(** gauss_weights.py 86-101: the while loop; [n] bounds the remaining rounds
    (LMAX + 1 - l), [wl[l:LMAX+1] = CUTOFF] ends it *)
Fixpoint gauss_loop (cut b : R) (n l : nat) (wl : list R) : list R :=
  match n with
  | O => wl
  | S n' =>
    let v := (1 - 2 * INR l) / b * nth (l - 1) wl 0 + nth (l - 2) wl 0 in
    if Rlt_dec v cut then firstn l wl ++ repeat cut (length wl - l)
    else gauss_loop cut b n' (S l) (upd wl l v)
  end.

(** gauss_weights.py 52-103 *)
Definition gauss_weights (hw : R) (LMAX : nat) (cut : R) : res (list R) :=
  if Rlt_dec hw cut then Ok (repeat (1 / (2 * PI)) (LMAX + 1))
  else
    let b := gauss_b hw in
    let w0 := 1 / (2 * PI) in
    let w1 := w0 * ((1 + exp (-2 * b)) / (1 - exp (-2 * b)) - 1 / b) in
    match LMAX with
    | O => Err IndexError                                     (* wl[1] of a length-1 array *)
    | S k => Ok (gauss_loop cut b k 2 (upd (upd (repeat 0 (LMAX + 1)) 0 w0) 1 w1))
    end.
(** gauss_weights.py 52: default cut-off *)
Definition cut_default : R := / 10 ^ 10.
