(** Model of noise_level and noise_mean, norm.py 165-230 (noise_delta is in NormModel), and of
    weight_prime_from_data, norm.py 314-362.  One pixel; numbers are exact. *)
From Coq Require Import Reals String.
From Verif Require Import Base Ordered FftReals Prop_AvgReals NormModel WeightModel AvgModel MapModel.
Open Scope string_scope.
Open Scope nat_scope.
Local Notation length := List.length.
Set Implicit Arguments.

(** noise_level, norm.py 165-202: (np.abs(window)**2).sum() * intensity *)
Definition noise_level (K : Fld) (window : mat (Cx K)) (intensity : K) : K :=
  fmul K (Sum (fmon K) (list_prod (seq 0 (mh window)) (seq 0 (mw window))) (fun p => cnorm2 (mat_at window (fst p) (snd p)))) intensity.

(** np.clip(x, lo, hi) *)
Definition clip (K : OFld) (lo hi x : K) : K := fmin K (fmax K x lo) hi.

(** noise_mean, norm.py 204-230; corr is a list over the delay *)
Definition noise_mean (K : OFld) (corr : list K) (scale_factor : K) (mode : string) : res K :=
  let g := map (fun x => fdiv K x scale_factor) corr in
  let first := match g with x :: _ => Ok x | [] => Raise IndexError end in
  if String.eqb mode "corr" then
    let* g0 := first in Ok (clip K (f0 K) (f1 K) (fsub K (f1 K) g0))
  else if String.eqb mode "diff" then
    let* g0 := first in Ok (clip K (f0 K) (f1 K) (fdiv K g0 (fadd K (f1 K) (f1 K))))
  else Raise ValueError.

(** weight_prime_from_data, norm.py 314-362, for real data.  [junk] and [junk'] are the contents of
    the arrays allocated by the two calls of denoise, [out] that of the array
    allocated by decreasing or increasing (numbers, not nan). *)
Definition number (K : OFld) (x : option K) : K := match x with Some x => x | None => f0 K end.
Definition weight_prime_from_data (junk junk' : nat -> nat -> R) (out corr : list R) (bg1 bg2 : Cx RF) (delta scale_factor : R) (mode : string)
    (pre_filter : bool) : res (list R) :=
  if String.eqb mode "corr" then
    let* corr :=
      if pre_filter then
        let* corr := denoise RO junk 3 corr in
        let corr := map (number RO) (decreasing RO false (map Some corr) (map Some out)) in
        let corr := map (clip RO 0%R scale_factor) corr in
        denoise RO junk' 3 corr
      else Ok corr in
    let g := map (fun x => x / scale_factor)%R corr in
    Ok (map (fun g => weight_prime_from_g (g, 0%R) delta bg1 bg2) g)
  else if String.eqb mode "diff" then
    let* corr :=
      if pre_filter then
        let* corr := denoise RO junk 3 corr in
        let corr := map (number RO) (increasing RO false (map Some corr) (map Some out)) in
        let corr := map (clip RO 0%R (scale_factor * 2)%R) corr in
        denoise RO junk' 3 corr
      else Ok corr in
    let d := map (fun x => x / scale_factor)%R corr in
    Ok (map (fun d => weight_prime_from_d (d, 0%R) delta bg1 bg2) d)
  else Raise ValueError.
