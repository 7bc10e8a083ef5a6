(** C65: window functions. *)
From Coq Require Import Reals Lra ZArith Lia.
From Verif Require Import Base MapModel WindowModel.
Set Implicit Arguments.
Local Open Scope R_scope.

(** The radius at pixel (i, j): distance from the centre of the frame, in units of the half sizes.  1 is the inscribed ellipse. *)
Definition radius (h w i j : nat) : R :=
  sqrt ((2 * INR j + 1 - INR w) ^ 2 / INR w ^ 2 + (2 * INR i + 1 - INR h) ^ 2 / INR h ^ 2).

Lemma size_pos n : (1 <= n)%nat -> 0 < INR n.
Proof. intros H. apply lt_0_INR. lia. Qed.
Lemma r_radius h w i j : (1 <= h)%nat -> (1 <= w)%nat -> mat_at (_r h w 1) i j = radius h w i j.
Proof. intros Hh Hw. apply size_pos in Hh, Hw. unfold _r, radius, axis. cbn [mat_at]. f_equal. field. lra. Qed.
Lemma radius_pos h w i j : 0 <= radius h w i j.
Proof. apply sqrt_pos. Qed.
(** The same at the pixels mirrored in the middle of the frame *)
Lemma radius_mirror h w i j : (i < h)%nat -> (j < w)%nat -> radius h w (h - 1 - i) j = radius h w i j /\ radius h w i (w - 1 - j) = radius h w i j.
Proof.
  intros Hi Hj. unfold radius. rewrite !minus_INR by lia. cbn [INR]. split; f_equal; unfold Rdiv; f_equal; f_equal; ring.
Qed.

(** The value as a function of the radius *)
Definition tukey_at (alpha r : R) : R :=
  if Rle_dec 1 r then 0 else if Rle_dec r (1 - alpha) then 1 else (1 - cos (PI * (r - 1) / alpha)) / 2.
Lemma tukey_values h w alpha x : (1 <= h)%nat -> (1 <= w)%nat -> 0 <= alpha <= 1 -> tukey h w alpha = Ok x -> mh x = h /\ mw x = w /\ forall i j, mat_at x i j = tukey_at alpha (radius h w i j).
Proof.
  intros Hh Hw Ha. unfold tukey, _tukey, rltb. destruct (Rlt_dec 1 alpha); [lra|]. destruct (Rlt_dec alpha 0); [lra|]. intros E. injection E as <-. unfold assign_where, mat_map.
  split; [destruct (Rlt_dec 0 (alpha * 1)); reflexivity|]. split; [destruct (Rlt_dec 0 (alpha * 1)); reflexivity|].
  intros i j. cbn [mat_at]. rewrite r_radius by assumption. set (r := radius h w i j). unfold tukey_at, rleb. destruct (Rle_dec 1 r) as [H1|H1]; [reflexivity|].
  destruct (Rlt_dec 0 (alpha * 1)) as [H2|H2]; cbn [mat_at].
  - rewrite r_radius by assumption. fold r. destruct (Rlt_dec (1 - alpha * 1) r); destruct (Rle_dec r (1 - alpha)); try lra. replace (alpha * 1) with alpha by ring. field.
  - destruct (Rle_dec r (1 - alpha)); [reflexivity|lra].
Qed.

Lemma slope_range alpha r : 0 < alpha -> 1 - alpha < r -> r < 1 -> 0 < - (PI * (r - 1) / alpha) < PI.
Proof.
  intros Ha H1 H2. pose proof PI_RGT_0 as P. replace (- (PI * (r - 1) / alpha)) with (PI * ((1 - r) / alpha)) by (field; lra).
  assert (Q : 0 < (1 - r) / alpha < 1). { split; [apply Rdiv_lt_0_compat; lra|]. apply (Rmult_lt_reg_r alpha); [exact Ha|]. unfold Rdiv. rewrite Rmult_assoc, Rinv_l by lra. lra. }
  split; [apply Rmult_lt_0_compat; lra|]. rewrite <- (Rmult_1_r PI) at 2. apply Rmult_lt_compat_l; lra.
Qed.

(** Tukey window: between 0 and 1; 0 from the ellipse on and positive inside; 1 up to radius 1 - alpha; it never rises with the radius. *)
Theorem C65_tukey h w alpha : (1 <= h)%nat -> (1 <= w)%nat -> 0 <= alpha <= 1 -> exists x, tukey h w alpha = Ok x /\ mh x = h /\ mw x = w /\
  forall i j, let v := mat_at x i j in let r := radius h w i j in
    0 <= v <= 1 /\ (v = 0 <-> 1 <= r) /\ (r <= 1 - alpha -> r < 1 -> v = 1) /\ (1 - alpha < r < 1 -> v = (1 - cos (PI * (1 - r) / alpha)) / 2) /\
    forall i' j', radius h w i j <= radius h w i' j' -> mat_at x i' j' <= v.
Proof.
  intros Hh Hw Ha. assert (E : exists x, tukey h w alpha = Ok x). { unfold tukey, _tukey, rltb. destruct (Rlt_dec 1 alpha); [lra|]. destruct (Rlt_dec alpha 0); [lra|]. eexists. reflexivity. }
  destruct E as [x E]. exists x. split; [exact E|]. destruct (tukey_values Hh Hw Ha E) as (M1 & M2 & V). split; [exact M1|]. split; [exact M2|]. intros i j. cbv zeta.
  pose proof PI_RGT_0 as P.
  assert (B : forall r, 0 <= tukey_at alpha r <= 1 /\ (r < 1 -> 0 < tukey_at alpha r)).
  { intros r. unfold tukey_at. destruct (Rle_dec 1 r); [lra|]. destruct (Rle_dec r (1 - alpha)); [lra|]. pose proof (COS_bound (PI * (r - 1) / alpha)) as C. split; [lra|]. intros _.
    assert (S : 0 < - (PI * (r - 1) / alpha) < PI) by (apply slope_range; lra).
    assert (L : cos (- (PI * (r - 1) / alpha)) < cos 0) by (apply cos_decreasing_1; lra). rewrite cos_neg, cos_0 in L. lra. }
  rewrite V. set (r := radius h w i j) in *. destruct (B r) as [B1 B2]. split; [exact B1|]. split; [|split; [|split]].
  - split; [intros H; destruct (Rle_dec 1 r) as [H'|H']; [exact H'|exfalso; assert (0 < tukey_at alpha r) by (apply B2; lra); lra]|]. intros H. unfold tukey_at. destruct (Rle_dec 1 r); [reflexivity|lra].
  - intros H1 H2. unfold tukey_at. destruct (Rle_dec 1 r); [lra|]. destruct (Rle_dec r (1 - alpha)); [reflexivity|lra].
  - intros H. unfold tukey_at. destruct (Rle_dec 1 r); [lra|]. destruct (Rle_dec r (1 - alpha)); [lra|]. replace (PI * (r - 1) / alpha) with (- (PI * (1 - r) / alpha)) by (field; lra). rewrite cos_neg. reflexivity.
  - intros i' j' H. rewrite V. fold r in H. set (s := radius h w i' j') in *. destruct (B s) as [S1 S2]. unfold tukey_at in *.
    destruct (Rle_dec 1 s); [lra|]. destruct (Rle_dec 1 r); [lra|]. destruct (Rle_dec r (1 - alpha)); [lra|]. destruct (Rle_dec s (1 - alpha)); [lra|].
    assert (Q1 : 0 < - (PI * (r - 1) / alpha) < PI) by (apply slope_range; lra). assert (Q2 : 0 < - (PI * (s - 1) / alpha) < PI) by (apply slope_range; lra).
    assert (Q3 : - (PI * (s - 1) / alpha) <= - (PI * (r - 1) / alpha)).
    { apply Ropp_le_contravar. unfold Rdiv. apply Rmult_le_compat_r; [apply Rlt_le, Rinv_0_lt_compat; lra|]. apply Rmult_le_compat_l; lra. }
    assert (Q4 : cos (- (PI * (r - 1) / alpha)) <= cos (- (PI * (s - 1) / alpha))) by (apply cos_decr_1; lra). rewrite !cos_neg in Q4. lra.
Qed.
Print Assumptions C65_tukey.
(** Hann window: Tukey window with alpha = 1, (1 + cos(pi r))/2 inside the ellipse. *)
Theorem C65_hann h w : (1 <= h)%nat -> (1 <= w)%nat -> hann h w = tukey h w 1 /\
  exists x, hann h w = Ok x /\ forall i j, let r := radius h w i j in mat_at x i j = if Rle_dec 1 r then 0 else (1 + cos (PI * r)) / 2.
Proof.
  intros Hh Hw. split; [reflexivity|]. destruct (@C65_tukey h w 1 Hh Hw ltac:(lra)) as (x & E & M1 & M2 & V). exists x. split; [exact E|]. intros i j. cbv zeta. destruct (V i j) as (V1 & V2 & V3 & V4 & _).
  pose proof (radius_pos h w i j). destruct (Rle_dec 1 (radius h w i j)) as [H1|H1]; [apply V2; exact H1|].
  destruct (Rle_dec (radius h w i j) 0) as [H2|H2].
  - rewrite V3 by lra. replace (radius h w i j) with 0 by lra. rewrite Rmult_0_r, cos_0. lra.
  - rewrite V4 by lra. replace (PI * (1 - radius h w i j) / 1) with (- (PI * radius h w i j) + PI) by field. rewrite neg_cos, cos_neg. lra.
Qed.
Print Assumptions C65_hann.
(** Blackman window: between 0 and 1; 0 exactly from the ellipse on; never rises with the radius. *)
Theorem C65_blackman h w : (1 <= h)%nat -> (1 <= w)%nat -> let x := blackman h w in mh x = h /\ mw x = w /\
  forall i j, let v := mat_at x i j in let r := radius h w i j in 0 <= v <= 1 /\ (v = 0 <-> 1 <= r) /\
    forall i' j', radius h w i j <= radius h w i' j' -> mat_at x i' j' <= v.
Proof.
  intros Hh Hw x. split; [reflexivity|]. split; [reflexivity|].
  set (f := fun r => if Rle_dec 1 r then 0 else 16 / 100 * (cos (PI * r) + 1) * (cos (PI * r) + 2125 / 1000)).
  assert (V : forall i j, mat_at x i j = f (radius h w i j)).
  { intros i j. unfold x, blackman, assign_where, mat_map. cbn [mat_at]. rewrite r_radius by assumption. unfold f, rleb. destruct (Rle_dec 1 (radius h w i j)); [reflexivity|].
    replace (2 * PI * radius h w i j) with (2 * (PI * radius h w i j)) by ring. rewrite cos_2a_cos. replace (1 * PI * radius h w i j) with (PI * radius h w i j) by ring. field. }
  pose proof PI_RGT_0 as P.
  assert (C : forall r, 0 <= r < 1 -> -1 < cos (PI * r)).
  { intros r H. assert (Q : cos PI < cos (PI * r)). { apply cos_decreasing_1; try lra; [apply Rmult_le_pos; lra|rewrite <- (Rmult_1_r PI) at 2; apply Rmult_le_compat_l; lra|rewrite <- (Rmult_1_r PI) at 2; apply Rmult_lt_compat_l; lra]. }
    rewrite cos_PI in Q. exact Q. }
  intros i j. cbv zeta. pose proof (radius_pos h w i j) as R0. rewrite V. set (r := radius h w i j) in *.
  assert (B : forall r, 0 <= r -> 0 <= f r <= 1 /\ (r < 1 -> 0 < f r)).
  { clear. intros r Hr. unfold f. destruct (Rle_dec 1 r); [lra|]. pose proof (COS_bound (PI * r)) as CB. assert (Q : -1 < cos (PI * r)).
    { pose proof PI_RGT_0 as P. assert (Q : cos PI < cos (PI * r)). { apply cos_decreasing_1; try lra; [apply Rmult_le_pos; lra|rewrite <- (Rmult_1_r PI) at 2; apply Rmult_le_compat_l; lra|rewrite <- (Rmult_1_r PI) at 2; apply Rmult_lt_compat_l; lra]. } rewrite cos_PI in Q. exact Q. }
    split; [split|]; nra. }
  destruct (B r R0) as [B1 B2]. split; [exact B1|]. split.
  - split; [intros H; destruct (Rle_dec 1 r) as [H'|H']; [exact H'|exfalso; assert (0 < f r) by (apply B2; lra); lra]|]. intros H. unfold f. destruct (Rle_dec 1 r); [reflexivity|lra].
  - intros i' j' H. rewrite V. pose proof (radius_pos h w i' j') as S0. set (s := radius h w i' j') in *. fold r in H. unfold f in *.
    destruct (Rle_dec 1 s); [lra|]. destruct (Rle_dec 1 r); [lra|].
    assert (Q : cos (PI * s) <= cos (PI * r)). { apply cos_decr_1; try (apply Rmult_le_pos; lra); try (rewrite <- (Rmult_1_r PI) at 2; apply Rmult_le_compat_l; lra). apply Rmult_le_compat_l; lra. }
    pose proof (C s ltac:(lra)). pose proof (COS_bound (PI * r)). nra.
Qed.
Print Assumptions C65_blackman.
(** Gaussian window: positive everywhere, at most 1, falls with the radius; sigma that is not positive is refused. *)
Theorem C65_gaussian h w sigma : (1 <= h)%nat -> (1 <= w)%nat -> (sigma <= 0 -> gaussian h w sigma = Raise ValueError) /\
  (0 < sigma -> exists x, gaussian h w sigma = Ok x /\ mh x = h /\ mw x = w /\ forall i j, mat_at x i j = exp (- (radius h w i j) ^ 2 / (2 * sigma ^ 2)) /\ 0 < mat_at x i j <= 1).
Proof.
  intros Hh Hw. unfold gaussian, rleb. destruct (Rle_dec sigma 0) as [H|H]; (split; [intros H'; try reflexivity; lra|intros H'; try lra]).
  eexists. split; [reflexivity|]. split; [reflexivity|]. split; [reflexivity|]. intros i j. unfold mat_map, _r. cbn [mat_at]. apply size_pos in Hh, Hw.
  assert (S2 : sqrt 2 * sqrt 2 = 2) by (apply sqrt_sqrt; lra). assert (Sp : 0 < sqrt 2) by (apply sqrt_lt_R0; lra).
  assert (Q : forall a b, 0 <= a ^ 2 + b ^ 2) by (intros a b; pose proof (pow2_ge_0 a); pose proof (pow2_ge_0 b); lra).
  assert (E : forall t, 0 <= t -> sqrt t ^ 2 = t). { intros t Ht. replace (sqrt t ^ 2) with (sqrt t * sqrt t) by ring. apply sqrt_sqrt. exact Ht. }
  rewrite E by apply Q. assert (F : radius h w i j ^ 2 = (2 * INR j + 1 - INR w) ^ 2 / INR w ^ 2 + (2 * INR i + 1 - INR h) ^ 2 / INR h ^ 2).
  { unfold radius. apply E. apply Rplus_le_le_0_compat; (apply Rle_mult_inv_pos; [apply pow2_ge_0|apply pow_lt; assumption]). }
  assert (G : - ((axis w j / (INR w / 2 * (sigma * sqrt 2))) ^ 2 + (axis h i / (INR h / 2 * (sigma * sqrt 2))) ^ 2) = - radius h w i j ^ 2 / (2 * sigma ^ 2)).
  { assert (U : forall a b, b <> 0 -> (a / (b * (sigma * sqrt 2))) ^ 2 = (a / (b * sigma)) ^ 2 / 2).
    { intros a b Hb. rewrite <- S2 at 2. field. repeat split; lra. }
    rewrite F, !U by lra. unfold axis. field. repeat split; lra. }
  split; [rewrite G; reflexivity|]. split; [apply exp_pos|]. rewrite <- exp_0. destruct (Q (axis w j / (INR w / 2 * (sigma * sqrt 2))) (axis h i / (INR h / 2 * (sigma * sqrt 2)))) as [L|L].
  - apply Rlt_le, exp_increasing. lra.
  - rewrite <- L, Ropp_0. lra.
Qed.
Print Assumptions C65_gaussian.
(** All windows are the same at the pixels mirrored up-down and left-right. *)
Theorem C65_symmetric h w alpha sigma i j : (1 <= h)%nat -> (1 <= w)%nat -> (i < h)%nat -> (j < w)%nat ->
  forall x, blackman h w = x \/ tukey h w alpha = Ok x \/ hann h w = Ok x \/ gaussian h w sigma = Ok x ->
    mat_at x (h - 1 - i) j = mat_at x i j /\ mat_at x i (w - 1 - j) = mat_at x i j.
Proof.
  intros Hh Hw Hi Hj x. destruct (radius_mirror Hi Hj) as [R1 R2].
  assert (T : forall a, tukey h w a = Ok x -> mat_at x (h - 1 - i) j = mat_at x i j /\ mat_at x i (w - 1 - j) = mat_at x i j).
  { intros a E. assert (Ha : 0 <= a <= 1). { unfold tukey, _tukey, rltb in E. destruct (Rlt_dec 1 a); [discriminate|]. destruct (Rlt_dec a 0); [discriminate|]. lra. }
    destruct (tukey_values Hh Hw Ha E) as (_ & _ & V). rewrite !V, R1, R2. auto. }
  intros [<-|[E|[E|E]]].
  - unfold blackman, assign_where, mat_map. cbn [mat_at]. rewrite !r_radius, R1, R2 by assumption. auto.
  - eapply T. exact E.
  - apply (T 1). exact E.
  - destruct (Rle_dec sigma 0) as [H|H]; [destruct (@C65_gaussian h w sigma Hh Hw) as [G _]; rewrite (G H) in E; discriminate|].
    destruct (@C65_gaussian h w sigma Hh Hw) as [_ G]. destruct (G ltac:(lra)) as (y & E' & _ & _ & V). rewrite E in E'. injection E' as <-.
    rewrite (proj1 (V (h - 1 - i)%nat j)), (proj1 (V i (w - 1 - j)%nat)), (proj1 (V i j)), R1, R2. auto.
Qed.
Print Assumptions C65_symmetric.
(** Parameters out of range *)
Theorem C65_refused h w alpha : alpha < 0 \/ 1 < alpha -> tukey h w alpha = Raise ValueError.
Proof. intros H. unfold tukey, _tukey, rltb. destruct (Rlt_dec 1 alpha); [reflexivity|]. destruct (Rlt_dec alpha 0); [reflexivity|lra]. Qed.
Print Assumptions C65_refused.
(** The middle pixel of a frame of odd sizes is at radius 0; with an even size no pixel is. *)
Theorem C65_centre h w i j : (1 <= h)%nat -> (1 <= w)%nat -> (radius h w i j = 0 <-> (2 * i + 1 = h /\ 2 * j + 1 = w)%nat).
Proof.
  intros Hh Hw. pose proof (size_pos Hh) as Ph. pose proof (size_pos Hw) as Pw. unfold radius.
  assert (Q1 : 0 <= (2 * INR j + 1 - INR w) ^ 2 / INR w ^ 2) by (apply Rle_mult_inv_pos; [apply pow2_ge_0|apply pow_lt; assumption]).
  assert (Q2 : 0 <= (2 * INR i + 1 - INR h) ^ 2 / INR h ^ 2) by (apply Rle_mult_inv_pos; [apply pow2_ge_0|apply pow_lt; assumption]).
  assert (Z : forall n k, (1 <= n)%nat -> (2 * INR k + 1 - INR n) ^ 2 / INR n ^ 2 = 0 <-> (2 * k + 1 = n)%nat).
  { clear. intros n k Hn. apply size_pos in Hn. assert (E : 2 * INR k + 1 = INR (2 * k + 1)) by (rewrite plus_INR, mult_INR; cbn [INR]; ring). rewrite E. split; intros H.
    - apply INR_eq. apply (Rmult_eq_compat_r (INR n ^ 2)) in H. rewrite Rmult_0_l in H. replace ((INR (2 * k + 1) - INR n) ^ 2 / INR n ^ 2 * INR n ^ 2) with ((INR (2 * k + 1) - INR n) ^ 2) in H by (field; lra). nra.
    - rewrite H. field. lra. }
  split.
  - intros H. apply sqrt_eq_0 in H; [|lra]. split; [apply (Z h i Hh); lra|apply (Z w j Hw); lra].
  - intros [H1 H2]. apply (Z h i Hh) in H1. apply (Z w j Hw) in H2. rewrite H1, H2, Rplus_0_r. apply sqrt_0.
Qed.
Print Assumptions C65_centre.
(** A frame of 1 row and 5 columns: radii 4/5, 2/5, 0, 2/5, 4/5; the Tukey window with alpha = 2/5 is 1 in the middle three and 1/2 at the ends. *)
Example C65_example : exists x, tukey 1 5 (2 / 5) = Ok x /\ mat_at x 0 0 = 1 / 2 /\ mat_at x 0 1 = 1 /\ mat_at x 0 2 = 1.
Proof.
  destruct (@C65_tukey 1 5 (2 / 5) ltac:(lia) ltac:(lia) ltac:(lra)) as (x & E & _ & _ & V). exists x. split; [exact E|].
  assert (R : forall j t, (2 * INR j + 1 - INR 5) ^ 2 / INR 5 ^ 2 + (2 * INR 0 + 1 - INR 1) ^ 2 / INR 1 ^ 2 = t * t -> 0 <= t -> radius 1 5 0 j = t). { intros j t H Ht. unfold radius. rewrite H. apply sqrt_square. exact Ht. }
  assert (R0 : radius 1 5 0 0 = 4 / 5) by (apply R; [cbn; field|lra]). assert (R1 : radius 1 5 0 1 = 2 / 5) by (apply R; [cbn; field|lra]). assert (R2 : radius 1 5 0 2 = 0) by (apply R; [cbn; field|lra]).
  destruct (V 0%nat 0%nat) as (_ & _ & _ & V0 & _). destruct (V 0%nat 1%nat) as (_ & _ & V1 & _). destruct (V 0%nat 2%nat) as (_ & _ & V2 & _). rewrite R0 in V0. rewrite R1 in V1. rewrite R2 in V2.
  split; [|split; [apply V1; lra|apply V2; lra]]. rewrite V0 by lra. replace (PI * (1 - 4 / 5) / (2 / 5)) with (PI / 2) by field. rewrite cos_PI2. lra.
Qed.
