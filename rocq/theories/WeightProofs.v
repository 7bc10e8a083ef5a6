(** Proofs about weights over the real numbers. *)
From Coq Require Import Reals Lra Psatz Field.
From Verif Require Import Base Kernels NormModel FftReals WeightModel.
Set Implicit Arguments.
Local Open Scope R_scope.

Lemma w_real (g d : R) : @weight_from_g_real RF g d = 2 * g / (g * g + 1 + d * d).
Proof. unfold weight_from_g_real. cbn [RF fdiv fadd fmul f1]. replace (1 + 1) with 2 by lra. reflexivity. Qed.
Lemma ws_real (x y w : R) : @_weighted_sum_real RF x y w = x * w + (1 - w) * y.
Proof. reflexivity. Qed.
Lemma w_complex (g : Cx RF) (d : R) : @weight_from_g_complex RF g d =
  (2 * cre g / (cre g * cre g + cim g * cim g + 1 + d * d), 2 * cim g / (cre g * cre g + cim g * cim g + 1 + d * d)).
Proof. unfold weight_from_g_complex. cbn [RF fdiv fadd fmul f1]. replace (1 + 1) with 2 by lra. reflexivity. Qed.
Lemma den_pos (g d : R) : 0 < g * g + 1 + d * d.
Proof. nra. Qed.
Lemma den_pos_c (a b d : R) : 0 < a * a + b * b + 1 + d * d.
Proof. nra. Qed.
Lemma frac_le a b c : 0 < b -> a <= c * b -> a / b <= c.
Proof. intros Hb H. apply Rmult_le_reg_r with b; [exact Hb|]. unfold Rdiv. rewrite Rmult_assoc, Rinv_l by lra. lra. Qed.
Lemma frac_ge a b c : 0 < b -> c * b <= a -> c <= a / b.
Proof. intros Hb H. apply Rmult_le_reg_r with b; [exact Hb|]. unfold Rdiv. rewrite Rmult_assoc, Rinv_l by lra. lra. Qed.
Lemma frac_eq a b c : 0 < b -> (a / b = c <-> a = c * b).
Proof.
  intros Hb. split; intros H.
  - rewrite <- H. field. lra.
  - rewrite H. field. lra.
Qed.
Lemma root_mono x y : x <= y -> 0 <= x -> root x = Fin (sqrt x) /\ root y = Fin (sqrt y) /\ sqrt x <= sqrt y.
Proof.
  intros H H0. unfold root. destruct (Rlt_dec x 0); [lra|]. destruct (Rlt_dec y 0); [lra|].
  split; [reflexivity|]. split; [reflexivity|]. apply sqrt_le_1_alt. exact H.
Qed.
(** A parabola a w^2 - 2 b w + c *)
Lemma parabola a b w : 0 < a -> a * (w - b / a) * (w - b / a) = a * w * w - 2 * b * w + b * b / a.
Proof. intros H. field. lra. Qed.
Lemma parabola_min a b c w : 0 < a ->
  a * (b / a) * (b / a) - 2 * b * (b / a) + c <= a * w * w - 2 * b * w + c /\
  (a * (b / a) * (b / a) - 2 * b * (b / a) + c = a * w * w - 2 * b * w + c -> w = b / a).
Proof.
  intros H. pose proof (parabola b w H) as E1. pose proof (parabola b (b / a) H) as E2.
  replace (a * (b / a - b / a) * (b / a - b / a)) with 0 in E2 by ring.
  split.
  - assert (0 <= a * (w - b / a) * (w - b / a)); [|lra]. rewrite Rmult_assoc. apply Rmult_le_pos; [lra|]. apply Rle_0_sqr.
  - intros E. assert (Z : a * (w - b / a) * (w - b / a) = 0) by lra.
    apply Rmult_integral in Z as [Z|Z]; [apply Rmult_integral in Z as [Z|Z]|]; lra.
Qed.
Lemma sigma_sq_parabola w (g : Cx RF) d :
  sigma_weighted_sq w g d = / 2 * ((cre g * cre g + cim g * cim g + 1 + d * d) * w * w - 2 * (2 * cre g) * w
    + (2 * (cre g * cre g) - (cre g * cre g + cim g * cim g) + 1 - d * d)).
Proof. unfold sigma_weighted_sq. cbn [cre cim]. ring. Qed.
Lemma sigma_min w (g : Cx RF) d :
  let w0 := cre (@weight_from_g_complex RF g d) in
  sigma_weighted_sq w0 g d <= sigma_weighted_sq w g d /\ (sigma_weighted_sq w0 g d = sigma_weighted_sq w g d -> w = w0).
Proof.
  intros w0. unfold w0. rewrite w_complex. cbn [cre fst]. rewrite !sigma_sq_parabola.
  match goal with |- / 2 * (?a * _ * _ - 2 * ?b * _ + ?c) <= _ /\ _ => destruct (@parabola_min a b c w) as [H1 H2]; [apply den_pos_c|] end.
  split; [|intros E; apply H2]; lra.
Qed.
(** If |g|^2 <= 1 - delta^2 then the number under the root is not negative. *)
Lemma sigma_sq_nonneg w (g : Cx RF) d : cre g * cre g + cim g * cim g <= 1 - d * d -> 0 <= sigma_weighted_sq w g d.
Proof.
  intros H. apply Rle_trans with (sigma_weighted_sq (cre (@weight_from_g_complex RF g d)) g d); [|apply sigma_min].
  rewrite sigma_sq_parabola, w_complex. cbn [cre fst]. set (a := cre g) in *. set (b := cim g) in *.
  pose proof (den_pos_c a b d) as P. set (S := a * a + b * b + 1 + d * d) in *.
  apply Rmult_le_pos; [lra|].
  replace (S * (2 * a / S) * (2 * a / S) - 2 * (2 * a) * (2 * a / S) + (2 * (a * a) - (a * a + b * b) + 1 - d * d))
    with ((S * (a * a - b * b + 1 - d * d) - 4 * (a * a)) / S) by (field; lra).
  apply frac_ge; [exact P|]. rewrite Rmult_0_l. unfold S. clear S P.
  assert (E : (a * a + b * b + 1 + d * d) * (a * a - b * b + 1 - d * d) - 4 * (a * a) =
              (1 - a * a) * (1 - a * a) - (b * b + d * d) * (b * b + d * d)) by ring.
  change R with (fcar RF) in *. cbn [fcar RF] in *. rewrite E.
  assert (0 <= b * b + d * d) by nra. assert (b * b + d * d <= 1 - a * a) by lra. nra.
Qed.

Lemma sigma_prime_parabola w (g : Cx RF) d b1 b2 :
  sigma_prime_weighted_sq w g d b1 b2 =
  / 2 * ((cre g * cre g + cim g * cim g + 1 + d * d + bg_s b1 + bg_s b2 + (bg_s b2 - bg_s b1) * d + 2 * bg_r b1 b2 * cre g + 2 * bg_i b1 b2 * cim g) * w * w
    - 2 * (2 * cre g + 2 * bg_r b1 b2 + (bg_s b1 + bg_s b2) * cre g) * w
    + (2 * (cre g * cre g) - (cre g * cre g + cim g * cim g) + 1 - d * d + bg_s b1 + bg_s b2 - (bg_s b2 - bg_s b1) * d + 2 * bg_r b1 b2 * cre g - 2 * bg_i b1 b2 * cim g)).
Proof. unfold sigma_prime_weighted_sq. field. Qed.
Lemma bg_lagrange b1 b2 : bg_r b1 b2 * bg_r b1 b2 + bg_i b1 b2 * bg_i b1 b2 = bg_s b1 * bg_s b2.
Proof. unfold bg_r, bg_i, bg_s. ring. Qed.
Lemma bg_s_nonneg b : 0 <= bg_s b.
Proof. unfold bg_s. destruct b as [a b]. cbn. nra. Qed.
(** a + b + 2 c >= 0 if c^2 <= a b *)
Lemma am_gm a b c : 0 <= a -> 0 <= b -> c * c <= a * b -> 0 <= a + b + 2 * c.
Proof.
  intros Ha Hb H. destruct (Rle_lt_dec 0 (a + b + 2 * c)) as [|Hn]; [assumption|exfalso].
  assert (0 <= a + b) by lra. assert (a + b < - (2 * c)) by lra.
  assert ((a + b) * (a + b) < 4 * (c * c)) by nra. pose proof (Rle_0_sqr (a - b)) as HS. unfold Rsqr in HS. nra.
Qed.
Lemma prime_den_pos (g : Cx RF) d b1 b2 : cre g * cre g + cim g * cim g <= 1 - d * d ->
  0 < cre g * cre g + cim g * cim g + 1 + d * d + bg_s b1 + bg_s b2 + (bg_s b2 - bg_s b1) * d + 2 * bg_r b1 b2 * cre g + 2 * bg_i b1 b2 * cim g.
Proof.
  intros H. pose proof (bg_lagrange b1 b2) as L. pose proof (bg_s_nonneg b1) as S1. pose proof (bg_s_nonneg b2) as S2.
  set (s1 := bg_s b1) in *. set (s2 := bg_s b2) in *. set (r := bg_r b1 b2) in *. set (i := bg_i b1 b2) in *.
  set (a := cre g) in *. set (b := cim g) in *. cbn [fcar RF] in *.
  assert (D : -1 <= d <= 1) by nra.
  assert (M : 0 <= s1 * (1 - d) + s2 * (1 + d) + 2 * (r * a + i * b)).
  { apply am_gm; [apply Rmult_le_pos; lra|apply Rmult_le_pos; lra|].
    assert (CS : (r * a + i * b) * (r * a + i * b) <= (r * r + i * i) * (a * a + b * b)).
    { pose proof (Rle_0_sqr (r * b - i * a)) as Q. unfold Rsqr in Q. nra. }
    assert (0 <= s1 * s2) by (apply Rmult_le_pos; assumption).
    assert (s1 * s2 * (a * a + b * b) <= s1 * s2 * (1 - d * d)) by (apply Rmult_le_compat_l; assumption).
    rewrite L in CS. apply Rle_trans with (s1 * s2 * (1 - d * d)); [lra|]. right. ring. }
  assert (0 < a * a + b * b + 1 + d * d) by nra. lra.
Qed.
Lemma sigma_prime_min w (g : Cx RF) d b1 b2 : cre g * cre g + cim g * cim g <= 1 - d * d ->
  let w0 := weight_prime_from_g g d b1 b2 in
  sigma_prime_weighted_sq w0 g d b1 b2 <= sigma_prime_weighted_sq w g d b1 b2 /\
  (sigma_prime_weighted_sq w0 g d b1 b2 = sigma_prime_weighted_sq w g d b1 b2 -> w = w0).
Proof.
  intros H w0. pose proof (@prime_den_pos g d b1 b2 H) as P. unfold w0, weight_prime_from_g. rewrite !sigma_prime_parabola.
  match goal with |- / 2 * (?a * _ * _ - 2 * ?b * _ + ?c) <= _ /\ _ => destruct (@parabola_min a b c w P) as [H1 H2] end.
  split; [|intros E; apply H2]; lra.
Qed.
Section Ends.
  Variable K : Fld.
  Add Field Kfwe : (flaw K).
  Lemma ws_ends (x y w : K) :
    _weighted_sum_real K x y (f1 K) = x /\ _weighted_sum_real K x y (f0 K) = y /\ _weighted_sum_real K x x w = x.
  Proof. unfold _weighted_sum_real. repeat split; ring. Qed.
End Ends.
Lemma w_complex_modulus (g : Cx RF) (delta : R) :
  let w := @weight_from_g_complex RF g delta in cre w * cre w + cim w * cim w <= 1.
Proof.
  intros w. unfold w. rewrite w_complex. generalize (cre g) (cim g). cbn [cre cim fst snd fcar RF]. intros a b.
  pose proof (den_pos_c a b delta) as P.
  replace (2 * a / (a * a + b * b + 1 + delta * delta) * (2 * a / (a * a + b * b + 1 + delta * delta)) +
           2 * b / (a * a + b * b + 1 + delta * delta) * (2 * b / (a * a + b * b + 1 + delta * delta)))
    with (4 * (a * a + b * b) / ((a * a + b * b + 1 + delta * delta) * (a * a + b * b + 1 + delta * delta))) by (field; lra).
  apply frac_le; [nra|]. set (s := a * a + b * b) in *. assert (0 <= s) by (unfold s; nra). assert (0 <= delta * delta) by nra. set (d := delta * delta) in *.
  pose proof (Rle_0_sqr (s - 1)) as Q. unfold Rsqr in Q. nra.
Qed.
