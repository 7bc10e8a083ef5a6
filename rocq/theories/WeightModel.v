(** The predicted standard deviation of weighted normalization, over the real numbers. *)
From Coq Require Import Reals Lra.
From Verif Require Import Base Kernels NormModel FftReals.
Set Implicit Arguments.
Local Open Scope R_scope.

(** x**0.5 for a floating point number: nan if x is negative *)
Definition root (x : R) : fval R := if Rlt_dec x 0 then NonFin else Fin (sqrt x).

(** sigma_weighted, _core_nb.py 1191-1198: the number under the root, and the result *)
Definition sigma_weighted_sq (w : R) (g : Cx RF) (delta : R) : R :=
  let g2 := cre g * cre g in
  let c2 := g2 + cim g * cim g in
  let d2 := delta * delta in
  / 2 * (w * w * (c2 + 1 + d2) - 4 * w * cre g + 2 * g2 - c2 + 1 - d2).
Definition sigma_weighted (w : R) (g : Cx RF) (delta : R) : fval R := root (sigma_weighted_sq w g delta).

(** The common part of weight_prime_from_g and sigma_prime_weighted *)
Definition bg_s (b : Cx RF) : R := cre b * cre b + cim b * cim b.
Definition bg_r (b1 b2 : Cx RF) : R := cre b1 * cre b2 + cim b1 * cim b2.
Definition bg_i (b1 b2 : Cx RF) : R := cre b2 * cim b1 - cim b2 * cre b1.

(** weight_prime_from_g, _core_nb.py 1162-1181 *)
Definition weight_prime_from_g (g : Cx RF) (delta : R) (b1 b2 : Cx RF) : R :=
  let s1 := bg_s b1 in let s2 := bg_s b2 in
  let r := bg_r b1 b2 in let i := bg_i b1 b2 in
  let d2 := delta * delta in
  let g2 := cre g * cre g + cim g * cim g in
  let tmp1 := 2 * cre g + 2 * r + (s1 + s2) * cre g in
  let tmp2 := g2 + 1 + d2 + s1 + s2 + (s2 - s1) * delta + 2 * r * cre g + 2 * i * cim g in
  tmp1 / tmp2.
(** weight_prime_from_d, _core_nb.py 1183-1185 *)
Definition weight_prime_from_d (d : Cx RF) (delta : R) (b1 b2 : Cx RF) : R :=
  weight_prime_from_g (1 - cre d / 2, 0 - cim d / 2) delta b1 b2.

(** sigma_prime_weighted, _core_nb.py 1201-1217 *)
Definition sigma_prime_weighted_sq (w : R) (g : Cx RF) (delta : R) (b1 b2 : Cx RF) : R :=
  let g2 := cre g * cre g in
  let c2 := g2 + cim g * cim g in
  let d2 := delta * delta in
  let s1 := bg_s b1 in let s2 := bg_s b2 in
  let r := bg_r b1 b2 in let i := bg_i b1 b2 in
  / 2 * (w * w * (c2 + 1 + d2 + s1 + s2 + (s2 - s1) * delta + 2 * r * cre g + 2 * i * cim g)
         - 4 * w * (cre g + r + / 2 * (s1 + s2) * cre g)
         + 2 * g2 - c2 + 1 - d2 + s1 + s2 - (s2 - s1) * delta + 2 * r * cre g - 2 * i * cim g).
Definition sigma_prime_weighted (w : R) (g : Cx RF) (delta : R) (b1 b2 : Cx RF) : fval R :=
  root (sigma_prime_weighted_sq w g delta b1 b2).
