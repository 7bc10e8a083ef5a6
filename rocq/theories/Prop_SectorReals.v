(** C61 for the real numbers: the square root and the two-argument arctangent satisfy the hypotheses. *)
From Coq Require Import Reals Lra ZArith Lia.
From Verif Require Import Base Ordered FftReals Prop_AvgReals MapModel MapProofs SectorModel SectorProofs SectorProofs2 SectorProofs3 Prop_Sector.
Set Implicit Arguments.
Local Open Scope R_scope.

Lemma fnat_R n : fnat RF n = INR n.
Proof. induction n as [|n IH]; [reflexivity|]. rewrite fnat_S, S_INR. change (1 + fnat RF n = INR n + 1). rewrite IH. lra. Qed.
Lemma fZ_R z : fZ RO z = IZR z.
Proof.
  destruct z as [|p|p]; [reflexivity| |].
  - change (fnat RF (Pos.to_nat p) = IZR (Zpos p)). rewrite fnat_R, INR_IZR_INZ, positive_nat_Z. reflexivity.
  - change (- fnat RF (Pos.to_nat p) = IZR (Zneg p)). rewrite fnat_R, INR_IZR_INZ, positive_nat_Z, <- opp_IZR. reflexivity.
Qed.
Definition rfloor (x : R) : Z := (up x - 1)%Z.
Lemma RO_lt x y : flt RO x y = true <-> x < y.
Proof. apply rlt_true. Qed.
Lemma RO_le x y : @fle RO x y <-> x <= y.
Proof. apply rlt_false. Qed.
Lemma rfloor_ok : floors RO rfloor.
Proof.
  intros x. destruct (archimed x) as [H1 H2]. split.
  - apply RO_le. rewrite fZ_R. unfold rfloor. rewrite minus_IZR. cbn in *. lra.
  - apply RO_lt. rewrite fZ_R. unfold rfloor. replace (up x - 1 + 1)%Z with (up x) by lia. cbn in *. lra.
Qed.
(** np.arctan2(y, x); the y of the code is minus a frequency, so that 0 has the sign of -0.0 and the negative x axis has the angle -pi. *)
Definition arctan2 (y x : R) : R :=
  if Rlt_dec 0 x then atan (y / x)
  else if Rlt_dec x 0 then (if Rlt_dec 0 y then atan (y / x) + PI else atan (y / x) - PI)
  else if Rlt_dec 0 y then PI / 2 else if Rlt_dec y 0 then - (PI / 2) else 0.
Lemma arctan2_range y x : - PI <= arctan2 y x < PI.
Proof.
  pose proof PI_RGT_0 as P. pose proof (atan_bound (y / x)) as B. unfold arctan2.
  destruct (Rlt_dec 0 x); [lra|]. destruct (Rlt_dec x 0) as [L|L].
  - assert (I : / x < 0) by (apply Rinv_lt_0_compat; exact L). destruct (Rlt_dec 0 y) as [Y|Y].
    + assert (Q : y / x < 0) by (unfold Rdiv; nra). apply atan_increasing in Q. rewrite atan_0 in Q. lra.
    + assert (Q : 0 <= y / x) by (unfold Rdiv; nra). assert (Q' : 0 <= atan (y / x)). { destruct Q as [Q|<-]; [apply atan_increasing in Q; rewrite atan_0 in Q; lra|rewrite atan_0; lra]. } lra.
  - destruct (Rlt_dec 0 y); [lra|]. destruct (Rlt_dec y 0); lra.
Qed.
(** Radius and angle are those of the wave vector: x = r cos(angle), y = r sin(angle). *)
Definition hypot (x y : R) : R := sqrt (x * x + y * y).
Lemma hypot_pos x y : 0 <= hypot x y.
Proof. apply sqrt_pos. Qed.
Lemma polar y x : x = hypot x y * cos (arctan2 y x) /\ y = hypot x y * sin (arctan2 y x).
Proof.
  assert (Base : forall x y, 0 < x -> x = hypot x y * cos (atan (y / x)) /\ y = hypot x y * sin (atan (y / x))).
  { clear. intros x y H. set (t := atan (y / x)). assert (T : tan t = y / x) by apply tan_atan.
    assert (C : 0 < cos t) by (pose proof (atan_bound (y / x)); apply cos_gt_0; unfold t; lra). assert (S : sin t = y / x * cos t) by (rewrite <- T; unfold tan; field; lra).
    assert (E : x * x + y * y = (x / cos t) * (x / cos t)).
    { pose proof (sin2_cos2 t) as Q. unfold Rsqr in Q. rewrite S in Q. assert (Q' : (x * x + y * y) * (cos t * cos t) = x * x).
      { replace ((x * x + y * y) * (cos t * cos t)) with (x * x * (y / x * cos t * (y / x * cos t) + cos t * cos t)) by (field; lra). rewrite Q. ring. }
      apply (Rmult_eq_reg_r (cos t * cos t)); [|nra]. rewrite Q'. field. lra. }
    assert (HH : hypot x y = x / cos t). { unfold hypot. rewrite E. apply sqrt_square. apply Rlt_le. apply Rdiv_lt_0_compat; assumption. }
    rewrite HH, S. split; field; lra. }
  assert (Neg : forall x y, hypot (- x) (- y) = hypot x y) by (intros; unfold hypot; f_equal; ring).
  unfold arctan2. destruct (Rlt_dec 0 x) as [H|H]; [apply Base; exact H|]. destruct (Rlt_dec x 0) as [L|L].
  - destruct (Base (- x) (- y) ltac:(lra)) as [B1 B2]. replace (- y / - x) with (y / x) in B1, B2 by (field; lra). rewrite Neg in B1, B2.
    destruct (Rlt_dec 0 y) as [Y|Y]; [rewrite neg_cos, neg_sin|].
    + split; lra.
    + replace (atan (y / x) - PI) with (- (PI - atan (y / x))) by ring. rewrite cos_neg, sin_neg.
      replace (cos (PI - atan (y / x))) with (- cos (atan (y / x))). 2: { replace (PI - atan (y / x)) with (- atan (y / x) + PI) by ring. rewrite neg_cos, cos_neg. reflexivity. }
      rewrite sin_PI_x. split; lra.
  - assert (x = 0) by lra. subst x. unfold hypot. replace (0 * 0 + y * y) with (y * y) by ring. destruct (Rlt_dec 0 y) as [Y|Y].
    + rewrite sqrt_square by lra. rewrite cos_PI2, sin_PI2. split; ring.
    + destruct (Rlt_dec y 0) as [Y'|Y'].
      * replace (y * y) with (- y * - y) by ring. rewrite sqrt_square by lra. rewrite cos_neg, sin_neg, cos_PI2, sin_PI2. split; ring.
      * assert (y = 0) by lra. subst y. rewrite Rmult_0_l, sqrt_0. split; ring.
Qed.

(** Real numbers, pi, square root and arctangent: no hypothesis is left but the ranges of the parameters. *)
Theorem C61_real h w height width (angle sector kstep : R) :
  (1 <= h)%nat -> (1 <= w)%nat -> (1 <= height)%Z -> (1 <= width)%Z -> -180 <= angle <= 180 -> 0 < sector <= 180 -> 0 < kstep ->
  exists z, fft2_k_indexmap RO PI rfloor hypot arctan2 (Z.of_nat h) (Z.of_nat w) angle sector kstep (Some (height, width)) Fft2 = Ok z /\ mh z = h /\ mw z = w /\ mat_at z 0 0 = 0%Z /\
    forall ki kj, (- (Z.of_nat h / 2) <= ki <= (Z.of_nat h - 1) / 2)%Z -> (- (Z.of_nat w / 2) <= kj <= (Z.of_nat w - 1) / 2)%Z -> (ki, kj) <> (0, 0)%Z ->
      let long := IZR (Z.max height width) in let y := long * (IZR ki / IZR height) in let x := long * (IZR kj / IZR width) in
      (** strictly inside the sector: the ring nearest to the length *)
      ((exists turns, Rabs (arctan2 (- y) x + IZR turns * (2 * PI) - angle * (PI / 180)) < sector / 2 * (PI / 180)) ->
         exists r, at_freq z ki kj = Z.of_nat r /\ (INR r - 1 / 2) * kstep < hypot x y <= (INR r + 1 / 2) * kstep) /\
      (** strictly outside: -1 *)
      ((forall turns, sector / 2 * (PI / 180) < Rabs (arctan2 (- y) x + IZR turns * (2 * PI) - angle * (PI / 180))) -> at_freq z ki kj = (-1)%Z).
Proof.
  intros Hh Hw S1 S2 A T Hk.
  destruct (@C61_wavevector RO PI rfloor hypot arctan2 h w height width angle sector kstep) as (z & E & Z1 & Z2 & Z0 & Z); try assumption; try apply rfloor_ok.
  { apply RO_lt. exact PI_RGT_0. }
  { intros a b. apply RO_le. apply hypot_pos. }
  { intros a b. pose proof (arctan2_range a b). split; [apply RO_le|apply RO_lt]; cbn; lra. }
  { rewrite fZ_R. apply RO_le. cbn. lra. }
  { rewrite fZ_R. apply RO_le. lra. }
  { apply RO_lt. cbn. lra. }
  { rewrite fZ_R. apply RO_le. lra. }
  { apply RO_lt. cbn. lra. }
  exists z. split; [exact E|]. split; [exact Z1|]. split; [exact Z2|]. split; [exact Z0|]. intros ki kj Hi Hj N long y x.
  specialize (Z ki kj Hi Hj N). cbv zeta in Z. rewrite !fZ_R in Z. change (fmul RO (IZR (Z.max height width)) (fdiv RO (IZR ki) (IZR height))) with y in Z. change (fmul RO (IZR (Z.max height width)) (fdiv RO (IZR kj) (IZR width))) with x in Z.
  change (fopp RO y) with (- y) in Z. rewrite <- (fZ_R 180) in Z. destruct Z as [Zin Zout].
  assert (W : within RO PI (fZ RO 180) angle sector (arctan2 (- y) x) <-> exists turns, let b := arctan2 (- y) x + IZR turns * (2 * PI) in let lo := PI / 180 * (angle - sector / 2) in let hi := PI / 180 * (angle + sector / 2) in
     if flt RO PI hi || flt RO lo (- PI) then lo < b <= hi else lo <= b < hi).
  { unfold within, deg. rewrite !fZ_R. cbv zeta.
    change (fmul RO (fdiv RO PI 180) (fadd RO angle (fdiv RO sector 2))) with (PI / 180 * (angle + sector / 2)). change (fmul RO (fdiv RO PI 180) (fsub RO angle (fdiv RO sector 2))) with (PI / 180 * (angle - sector / 2)).
    change (fmul RO (fdiv RO PI 180) 180) with (PI / 180 * 180). replace (PI / 180 * 180) with PI by field. change (fopp RO PI) with (- PI).
    split; intros [t H]; exists t; [rewrite !fZ_R in H|rewrite !fZ_R]; change (fadd RO (arctan2 (- y) x) (fmul RO (IZR t) (fadd RO PI PI))) with (arctan2 (- y) x + IZR t * (PI + PI)) in *; replace (2 * PI) with (PI + PI) in * by ring;
      destruct (flt RO PI _ || _); rewrite RO_lt, RO_le in *; lra. }
  split.
  - intros [t Ht]. destruct Zin as (r & R1 & R2 & _).
    + apply W. exists t. cbv zeta. apply Rabs_def2 in Ht. destruct (flt RO PI _ || _); lra.
    + exists r. split; [exact R1|]. unfold in_ring in R2. rewrite !fZ_R, fnat_R, RO_lt, RO_le in R2. cbn in R2. lra.
  - intros H. apply Zout. rewrite W. intros [t Ht]. specialize (H t). revert H. apply Rle_not_lt. apply Rabs_le. cbv zeta in Ht. destruct (flt RO PI _ || _) in Ht; lra.
Qed.
Print Assumptions C61_real.
