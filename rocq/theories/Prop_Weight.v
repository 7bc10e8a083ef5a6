(** Properties C25, C66 and C67: weighted normalization, over the real numbers, and the
    scale option. *)
From Coq Require Import Reals Lra.
From Verif Require Import Base Kernels NormModel NormProofs2 NormMode NormMode3 FftReals WeightModel WeightProofs WeightApi Examples Prop_Norm1.
From Coq Require Import String Ascii.
Open Scope string_scope.
Set Implicit Arguments.
Local Open Scope R_scope.

(* ------------------------------------------------------------------ *)
(** * C25 *)
Theorem C25_between (x y w : R) : 0 <= w <= 1 ->
  Rmin x y <= @_weighted_sum_real RF x y w <= Rmax x y.
Proof.
  intros H. rewrite ws_real. unfold Rmin, Rmax. destruct (Rle_dec x y).
  - split; pose proof (Rmult_le_pos w (y - x)); pose proof (Rmult_le_pos (1 - w) (y - x)); nra.
  - split; pose proof (Rmult_le_pos w (x - y)); pose proof (Rmult_le_pos (1 - w) (x - y)); nra.
Qed.
Print Assumptions C25_between.
Example C25_between_example : @_weighted_sum_real RF 2 6 (1 / 4) = 5 /\ Rmin 2 6 = 2 /\ Rmax 2 6 = 6.
Proof. rewrite ws_real. unfold Rmin, Rmax. destruct (Rle_dec 2 6); lra. Qed.
(** The weights one and zero, and equal arguments, in every field. *)
Theorem C25_ends (K : Fld) (x y w : K) :
  _weighted_sum_real K x y (f1 K) = x /\ _weighted_sum_real K x y (f0 K) = y /\ _weighted_sum_real K x x w = x.
Proof. apply ws_ends. Qed.
Print Assumptions C25_ends.
Theorem C25_weight_nonneg (g delta : R) : 0 <= g -> 0 <= @weight_from_g_real RF g delta <= 1.
Proof.
  intros H. rewrite w_real. pose proof (den_pos g delta) as P. split; [apply frac_ge|apply frac_le]; try assumption; [lra|].
  pose proof (Rle_0_sqr (g - 1)) as Q. unfold Rsqr in Q. nra.
Qed.
Print Assumptions C25_weight_nonneg.
Theorem C25_weight_range (g delta : R) : -1 <= @weight_from_g_real RF g delta <= 1.
Proof.
  rewrite w_real. pose proof (den_pos g delta) as P.
  pose proof (Rle_0_sqr (g - 1)) as Q. pose proof (Rle_0_sqr (g + 1)) as Q'. unfold Rsqr in Q, Q'.
  split; [apply frac_ge|apply frac_le]; try assumption; nra.
Qed.
Print Assumptions C25_weight_range.
Theorem C25_weight_one (g delta : R) : @weight_from_g_real RF g delta = 1 <-> g = 1 /\ delta = 0.
Proof.
  rewrite w_real. rewrite frac_eq by apply den_pos. split.
  - intros H. assert (E : (g - 1) * (g - 1) + delta * delta = 0) by lra.
    pose proof (Rle_0_sqr (g - 1)) as Q. pose proof (Rle_0_sqr delta) as Q'. unfold Rsqr in Q, Q'.
    assert (E1 : (g - 1) * (g - 1) = 0) by lra. assert (E2 : delta * delta = 0) by lra.
    apply Rmult_integral in E1, E2. lra.
  - intros [-> ->]. lra.
Qed.
Print Assumptions C25_weight_one.
(** A complex weight has a modulus of at most one. *)
Theorem C25_weight_complex (g : Cx RF) (delta : R) :
  let w := @weight_from_g_complex RF g delta in cre w * cre w + cim w * cim w <= 1.
Proof. apply w_complex_modulus. Qed.
Print Assumptions C25_weight_complex.
Example C25_weight_example : @weight_from_g_real RF (1 / 2) 0 = 4 / 5 /\ @weight_from_g_real RF (-1) 0 = -1 /\ @weight_from_g_real RF 1 1 = 2 / 3.
Proof. rewrite !w_real. lra. Qed.
(** The real part of the weight is the only minimum of the predicted variance, for
    real and for complex correlations. *)
Theorem C25_minimizes (w : R) (g : Cx RF) (delta : R) :
  let w0 := cre (@weight_from_g_complex RF g delta) in
  sigma_weighted_sq w0 g delta <= sigma_weighted_sq w g delta /\
  (sigma_weighted_sq w0 g delta = sigma_weighted_sq w g delta -> w = w0).
Proof. apply sigma_min. Qed.
Print Assumptions C25_minimizes.
Theorem C25_minimizes_real (w g delta : R) :
  let w0 := @weight_from_g_real RF g delta in
  sigma_weighted_sq w0 (g, 0) delta <= sigma_weighted_sq w (g, 0) delta /\
  (sigma_weighted_sq w0 (g, 0) delta = sigma_weighted_sq w (g, 0) delta -> w = w0).
Proof.
  intros w0. replace w0 with (cre (@weight_from_g_complex RF (g, 0) delta)); [apply sigma_min|].
  unfold w0. rewrite w_real, w_complex. cbn [cre cim fst snd]. f_equal. ring.
Qed.
Print Assumptions C25_minimizes_real.
(** The standard deviation itself is a number only if |g|^2 <= 1 - delta^2 is assumed,
    which is how far two signals of these variances can be correlated. *)
Theorem C25_sigma (w : R) (g : Cx RF) (delta : R) : cre g * cre g + cim g * cim g <= 1 - delta * delta ->
  exists s s0, sigma_weighted w g delta = Fin s /\
    sigma_weighted (cre (@weight_from_g_complex RF g delta)) g delta = Fin s0 /\ s0 <= s.
Proof.
  intros H. destruct (@root_mono (sigma_weighted_sq (cre (@weight_from_g_complex RF g delta)) g delta) (sigma_weighted_sq w g delta)) as (H1 & H2 & H3).
  - apply sigma_min.
  - apply sigma_sq_nonneg. exact H.
  - eexists. eexists. split; [exact H2|]. split; [exact H1|exact H3].
Qed.
Print Assumptions C25_sigma.
Example C25_sigma_example : sigma_weighted_sq (4 / 5) (1 / 2, 0) 0 = 9 / 40 /\ sigma_weighted_sq 1 (1 / 2, 0) 0 = 1 / 4 /\
  sigma_weighted_sq (8 / 9) (1, 0) (1 / 2) = - (1 / 72).
Proof. unfold sigma_weighted_sq. cbn [cre cim fst snd]. lra. Qed.
(** A weighted norm is the weighted sum of the STRUCTURED and the STANDARD result ... *)
Theorem C25_normalize (K : Fld) denoise (data : cdata K K) bg var z mode scale w v :
  In z [3; 7; 11; 15]%Z -> scale_factor K var = Ok v ->
  supports data z = true -> bg <> SNone -> (mode = "corr" \/ mode = "diff") ->
  normalize real_ops denoise data bg var (Some (NInt z)) mode scale (Some w) =
  (let* x := normalize real_ops denoise data bg var (Some (NInt (z - 1)%Z)) mode scale None in
   let* y := normalize real_ops denoise data bg var (Some (NInt (z - 2)%Z)) mode scale None in
   Ok (weighted_sum real_ops x y w)).
Proof. apply weighted_is_sum. Qed.
Print Assumptions C25_normalize.
(** ... and every cell of it lies between the two. *)
Theorem C25_normalize_between (x y w : list (fval R)) i a b c :
  nth_error x i = Some (Fin a) -> nth_error y i = Some (Fin b) -> nth_error w i = Some (Fin c) -> 0 <= c <= 1 ->
  exists r, nth_error (weighted_sum (@real_ops RF) x y w) i = Some (Fin r) /\ Rmin a b <= r <= Rmax a b.
Proof.
  intros Ha Hb Hc H. exists (@_weighted_sum_real RF a b c). split; [|apply C25_between; exact H].
  revert y w i Ha Hb Hc. induction x as [|x0 x IH]; intros [|y0 y] [|w0 w] [|i] Ha Hb Hc; try discriminate.
  - injection Ha as ->. injection Hb as ->. injection Hc as ->. reflexivity.
  - apply (IH y w i Ha Hb Hc).
Qed.
Print Assumptions C25_normalize_between.
Example C25_normalize_example :
  show_all showv (normalize real_ops idn (DCorr [q 3; q 5] [1; 2]%nat (Some [q 6; q 8]) None None) (SOne (cz 1 0)) (SOne (q 4)) (Some (NInt 3%Z)) "corr" false
    (Some [Fin (q 1); Fin (q 0)])) =
    Ok [Some (4, 1); Some (3, 2)]%Z.
Proof. vm_compute. reflexivity. Qed.

(* ------------------------------------------------------------------ *)
(** * C66: weights that take the backgrounds into account *)
Theorem C66_minimizes (w : R) (g : Cx RF) (delta : R) (b1 b2 : Cx RF) : cre g * cre g + cim g * cim g <= 1 - delta * delta ->
  let w0 := weight_prime_from_g g delta b1 b2 in
  sigma_prime_weighted_sq w0 g delta b1 b2 <= sigma_prime_weighted_sq w g delta b1 b2 /\
  (sigma_prime_weighted_sq w0 g delta b1 b2 = sigma_prime_weighted_sq w g delta b1 b2 -> w = w0).
Proof. apply sigma_prime_min. Qed.
Print Assumptions C66_minimizes.
(** Without backgrounds they are the weights of C25. *)
Theorem C66_no_background (w : R) (g : Cx RF) (delta : R) :
  weight_prime_from_g g delta (0, 0) (0, 0) = cre (@weight_from_g_complex RF g delta) /\
  sigma_prime_weighted w g delta (0, 0) (0, 0) = sigma_weighted w g delta.
Proof.
  split.
  - unfold weight_prime_from_g. rewrite w_complex. unfold bg_s, bg_r, bg_i. destruct g as [a b]. cbn [cre cim fst snd fcar RF]. pose proof (den_pos_c a b delta). field. lra.
  - unfold sigma_prime_weighted, sigma_weighted. f_equal. unfold sigma_prime_weighted_sq, sigma_weighted_sq, bg_s, bg_r, bg_i. cbn [cre cim fst snd]. field.
Qed.
Print Assumptions C66_no_background.
Example C66_example : weight_prime_from_g (1 / 2, 0) 0 (1, 0) (1, 0) = 16 / 17 /\
  sigma_prime_weighted_sq (16 / 17) (1 / 2, 0) 0 (1, 0) (1, 0) = 33 / 136 /\
  sigma_prime_weighted_sq 1 (1 / 2, 0) 0 (1, 0) (1, 0) = 1 / 4.
Proof. unfold weight_prime_from_g, sigma_prime_weighted_sq, bg_s, bg_r, bg_i. cbn [cre cim fst snd]. lra. Qed.

(* ------------------------------------------------------------------ *)
(** * C67: the scale option *)
(** Scaled results are the unscaled ones divided by the variance, for all norms, if
    the weight of a weighted norm is given ... *)
Theorem C67_scale (K : Fld) denoise data bg var v norm mode w :
  scale_factor K var = Ok v -> v <> f0 K ->
  normalize real_ops denoise data bg var norm mode true (Some w) =
  on_result (fun x => fdiv K x v) (normalize real_ops denoise data bg var norm mode false (Some w)).
Proof. intros E Hv. apply (@normalize_scale K K real_ops denoise (@real_over_weighted K) (@real_over_one K) data bg var v norm mode (Some w) E Hv). discriminate. Qed.
Print Assumptions C67_scale.
(** ... or if there is a single variance and smoothing commutes with scaling. *)
Theorem C67_scale_one_variance (K : Fld) denoise data bg v norm mode w :
  v <> f0 K -> (forall u l, denoise (map (fv_map (fun x => fdiv K x u)) l) = map (fv_map (fun x => fdiv K x u)) (denoise l)) ->
  normalize real_ops denoise data bg (SOne v) norm mode true w =
  on_result (fun x => fdiv K x v) (normalize real_ops denoise data bg (SOne v) norm mode false w).
Proof. intros Hv HD. apply (@normalize_scale K K real_ops denoise (@real_over_weighted K) (@real_over_one K) data bg (SOne v) v norm mode w eq_refl Hv). auto. Qed.
Print Assumptions C67_scale_one_variance.
Theorem C67_scale_complex (K : Fld) denoise data bg var v norm mode w :
  scale_factor K var = Ok v -> v <> f0 K ->
  normalize complex_ops denoise data bg var norm mode true (Some w) =
  on_result (fun x => (fdiv K (cre x) v, fdiv K (cim x) v)) (normalize complex_ops denoise data bg var norm mode false (Some w)).
Proof. intros E Hv. apply (@normalize_scale K (Cx K) complex_ops denoise (@complex_over_weighted K) (@complex_over_one K) data bg var v norm mode (Some w) E Hv). discriminate. Qed.
Print Assumptions C67_scale_complex.
(** With two different variances the weight depends on the scale option: the noise
    difference delta is not scaled if scale=False, but the correlation is. *)
Theorem C67_two_variances_refuted : exists (data : cdata QcF QcF) bg v1 v2 v,
  scale_factor QcF (STwo v1 v2) = Ok v /\
  normalize real_ops idn data bg (STwo v1 v2) (Some (NInt 3%Z)) "corr" true None <>
  on_result (fun x => fdiv QcF x v) (normalize real_ops idn data bg (STwo v1 v2) (Some (NInt 3%Z)) "corr" false None).
Proof.
  exists (DCorr [q 3] [1]%nat (Some [q 14]) None None), (SOne (cz 0 0)), (q 2), (q 6), (fdiv QcF (fadd QcF (q 2) (q 6)) (fadd QcF (f1 QcF) (f1 QcF))). split; [reflexivity|]. intros H.
  apply (f_equal (show_all showv)) in H. vm_compute in H. discriminate.
Qed.
Print Assumptions C67_two_variances_refuted.
Example C67_example :
  show_all showv (normalize real_ops idn (DCorr [q 3; q 5] [1; 2]%nat (Some [q 6; q 8]) None None) (SOne (cz 1 0)) (SOne (q 4)) (Some (NInt 3%Z)) "corr" true None) =
    Ok [Some (522729, 522730); Some (461502987179403, 411912563497928)]%Z /\
  show_all showv (normalize real_ops idn (DCorr [q 3; q 5] [1; 2]%nat (Some [q 6; q 8]) None None) (SOne (cz 1 0)) (SOne (q 4)) (Some (NInt 3%Z)) "corr" false None) =
    Ok [Some (1045458, 261365); Some (461502987179403, 102978140874482)]%Z.
Proof. split; vm_compute; reflexivity. Qed.
