(** Opposite wave vectors are never in the same sector. *)
From Coq Require Import ZifyBool ZifyNat.
From Verif Require Import Base KernelProofs Ordered MapModel MapProofs SectorModel SectorProofs SectorProofs2 SectorProofs3 Prop_Sector.
Set Implicit Arguments.
Ltac Zify.zify_post_hook ::= Z.div_mod_to_equations.

Section S.
  Variable K : OFld.
  Add Field Kapart : (flaw K).
  Local Notation "0" := (f0 K).
  Local Notation "1" := (f1 K).
  Local Infix "+" := (fadd K).
  Local Infix "*" := (fmul K).
  Local Infix "-" := (fsub K).
  Local Infix "/" := (fdiv K).
  Local Notation "- x" := (fopp K x).
  Local Notation fZ := (fZ K).
  Variable pi : K.
  Hypothesis Hpi : flt K 0 pi = true.

  Lemma fZ_twice n : fZ n * (pi + pi) = fZ (2 * n) * pi.
  Proof using. clear Hpi. replace (2 * n)%Z with (n + n)%Z by lia. rewrite fZ_add. ring. Qed.
  (** A multiple that is at least once (pi) *)
  Lemma once s : (1 <= s)%Z -> fle 0 (fZ s * pi - pi).
  Proof using Hpi.
    intros H. replace (fZ s * pi - pi) with (fZ (s - 1) * pi) by (rewrite fZ_sub, fZ_1; ring). apply fle_mul_pos; [|apply flt_le; exact Hpi].
    change 0 with (fZ 0). apply fZ_le. lia.
  Qed.
  Lemma width sector : fle sector (fZ 180) -> fle 0 (pi - deg K pi sector).
  Proof using Hpi.
    intros H. unfold deg. replace (pi - pi / fZ 180 * sector) with (pi * ((fZ 180 - sector) / fZ 180)) by (field; apply fZ_neq0; lia).
    apply fle_mul_pos; [apply flt_le; exact Hpi|]. replace 0 with (0 / fZ 180) by (field; apply fZ_neq0; lia). apply fle_div; [apply to_le; exact H|apply fZ_pos; lia].
  Qed.
  Lemma within_apart angle sector a s : fle sector (fZ 180) -> (s mod 2 = 1)%Z ->
    within K pi (fZ 180) angle sector a -> within K pi (fZ 180) angle sector (a + fZ s * pi) -> False.
  Proof using Hpi.
    intros Hs Ho. unfold within. cbv zeta. rewrite deg_180. intros (n & H) (m & G). rewrite fZ_twice in H, G.
    replace (a + fZ s * pi + fZ (2 * m) * pi) with (a + fZ (2 * n) * pi + fZ (s + 2 * m - 2 * n) * pi) in G by (rewrite fZ_sub, fZ_add; ring).
    set (b := a + fZ (2 * n) * pi) in *. set (t := (s + 2 * m - 2 * n)%Z) in *. assert (T : (1 <= t \/ 1 <= - t)%Z) by lia. clearbody b t.
    pose proof (@width sector Hs) as W.
    set (lo := deg K pi (angle - sector / fZ 2)) in *. set (hi := deg K pi (angle + sector / fZ 2)) in *.
    assert (D : hi - lo = deg K pi sector). { unfold hi, lo, deg. assert (T2 : sector / fZ 2 + sector / fZ 2 = sector) by (assert (N2 : 1 + 1 <> 0) by (rewrite <- (fZ_2 K); apply fZ_neq0; lia); rewrite (fZ_2 K); field; exact N2). transitivity (pi / fZ 180 * (sector / fZ 2 + sector / fZ 2)); [ring|rewrite T2; reflexivity]. }
    assert (P : forall u v, flt K 0 (u - lo) = true -> fle 0 (hi - v) -> fle 0 (v - u - pi) -> False).
    { intros u v U V Y. pose proof (lt_le _ (lt_le _ (lt_le _ U V) W) Y) as Z. apply (absurd_lt K Z). rewrite <- D. ring. }
    assert (P' : forall u v, fle 0 (u - lo) -> flt K 0 (hi - v) = true -> fle 0 (v - u - pi) -> False).
    { intros u v U V Y. pose proof (lt_le _ (lt_le _ (lt_le _ V U) W) Y) as Z. apply (absurd_lt K Z). rewrite <- D. ring. }
    destruct (flt K pi hi || flt K lo (- pi)); destruct H as [H1 H2], G as [G1 G2]; destruct T as [T|T].
    - apply (P b (b + fZ t * pi)); [apply to_lt; exact H1|apply to_le; exact G2|]. replace (b + fZ t * pi - b - pi) with (fZ t * pi - pi) by ring. apply once. exact T.
    - apply (P (b + fZ t * pi) b); [apply to_lt; exact G1|apply to_le; exact H2|]. replace (b - (b + fZ t * pi) - pi) with (fZ (- t) * pi - pi) by (rewrite fZ_opp; ring). apply once. exact T.
    - apply (P' b (b + fZ t * pi)); [apply to_le; exact H1|apply to_lt; exact G2|]. replace (b + fZ t * pi - b - pi) with (fZ t * pi - pi) by ring. apply once. exact T.
    - apply (P' (b + fZ t * pi) b); [apply to_le; exact G1|apply to_lt; exact H2|]. replace (b - (b + fZ t * pi) - pi) with (fZ (- t) * pi - pi) by (rewrite fZ_opp; ring). apply once. exact T.
  Qed.

  Variable floor : K -> Z.
  Variable hyp arg : K -> K -> K.
  (** What is used of the angle: its range, and that it is that of the opposite direction turned by half a turn. *)
  Definition turned : Prop := forall y x, (y <> 0 \/ x <> 0) -> arg (- y) (- x) = arg y x + pi \/ arg (- y) (- x) = arg y x - pi.
  Definition in_range : Prop := forall y x, fle (- pi) (arg y x) /\ flt K (arg y x) pi = true.

  (** The map of indices of a plane of odd sizes *)
  Lemma odd_apart h w kmap anglemap z shape angle sector kstep k : floors K floor -> (forall a b, fle 0 (hyp a b)) -> turned -> in_range -> (h mod 2 = 1)%nat -> (w mod 2 = 1)%nat ->
    right_parameters K angle sector kstep shape -> fft2_kangle K hyp arg (Some (Z.of_nat h)) (Some (Z.of_nat w)) shape = Ok (kmap, anglemap) ->
    fft2_sector_indexmap K pi floor kmap anglemap angle sector kstep = Ok z -> (0 <= k)%Z ->
    forall i j, (i < h)%nat -> (j < w)%nat -> (i, j) <> (0, 0)%nat -> mat_at z i j = k -> at_freq z (- Z.of_nat i) (- Z.of_nat j) <> k.
  Proof using Hpi.
    intros HF Hy Ht Hr Oh Ow (A1 & A2 & S1 & S2 & Hk & G) Ek Ez K0 i j Hi Hj N E1 E2.
    destruct (@fft2_grid_ok K h w shape) as (gi & gj & si & sj & Eg & G1 & G2 & G3 & G4 & St & V); [lia|lia|exact G|].
    unfold fft2_kangle in Ek. rewrite Eg in Ek. cbn [bind] in Ek. unfold _kangle in Ek. injection Ek as Ek1 Ek2.
    assert (KM : mh kmap = h /\ mw kmap = w /\ mh anglemap = h /\ mw anglemap = w) by (subst kmap anglemap; cbn; auto). destruct KM as (M1 & M2 & M3 & M4).
    destruct (@C61_indexmap K pi floor kmap anglemap angle sector kstep) as (z' & Ez' & Z1 & Z2 & Z0 & Z); try assumption; try lia.
    { intros p q _ _. subst kmap. cbn [mat_at]. apply Hy. }
    { intros p q _ _. rewrite deg_180. subst anglemap. cbn [mat_at]. apply Hr. }
    assert (z' = z) by congruence. subst z'. clear Ez'.
    assert (W : forall p q, (p < h)%nat -> (q < w)%nat -> (p, q) <> (0, 0)%nat -> mat_at z p q = k -> ~ ~ within K pi (fZ 180) angle sector (mat_at anglemap p q)).
    { intros p q Hp Hq Np Ep D. destruct (Z p q) as [_ B]; [lia|lia|exact Np|]. specialize (B D). lia. }
    set (ki := (if (2 * i <? h)%nat then Z.of_nat i else Z.of_nat i - Z.of_nat h)%Z). set (kj := (if (2 * j <? w)%nat then Z.of_nat j else Z.of_nat j - Z.of_nat w)%Z).
    assert (Ri : (- (Z.of_nat h / 2) <= ki <= (Z.of_nat h - 1) / 2)%Z /\ (- (Z.of_nat h / 2) <= - ki <= (Z.of_nat h - 1) / 2)%Z) by (unfold ki; destruct (2 * i <? h)%nat eqn:Q; lia).
    assert (Rj : (- (Z.of_nat w / 2) <= kj <= (Z.of_nat w - 1) / 2)%Z /\ (- (Z.of_nat w / 2) <= - kj <= (Z.of_nat w - 1) / 2)%Z) by (unfold kj; destruct (2 * j <? w)%nat eqn:Q; lia).
    assert (Fi : freq h ki = i /\ freq h (- ki) = freq h (- Z.of_nat i)).
    { unfold ki, freq. destruct (2 * i <? h)%nat eqn:Q; split; try reflexivity; [rewrite Z.mod_small by lia; lia| |].
      - rewrite <- (Z.mod_unique (Z.of_nat i - Z.of_nat h) (Z.of_nat h) (-1) (Z.of_nat i)) by lia. lia.
      - f_equal. replace (- (Z.of_nat i - Z.of_nat h))%Z with (- Z.of_nat i + 1 * Z.of_nat h)%Z by lia. apply Z.mod_add. lia. }
    assert (Fj : freq w kj = j /\ freq w (- kj) = freq w (- Z.of_nat j)).
    { unfold kj, freq. destruct (2 * j <? w)%nat eqn:Q; split; try reflexivity; [rewrite Z.mod_small by lia; lia| |].
      - rewrite <- (Z.mod_unique (Z.of_nat j - Z.of_nat w) (Z.of_nat w) (-1) (Z.of_nat j)) by lia. lia.
      - f_equal. replace (- (Z.of_nat j - Z.of_nat w))%Z with (- Z.of_nat j + 1 * Z.of_nat w)%Z by lia. apply Z.mod_add. lia. }
    destruct Fi as [Fi1 Fi2], Fj as [Fj1 Fj2].
    destruct (V ki kj) as [V1 V2]; [apply Ri|apply Rj|]. destruct (V (- ki)%Z (- kj)%Z) as [V3 V4]; [apply Ri|apply Rj|].
    unfold at_freq in V1, V2, V3, V4, E2. rewrite ?G1, ?G2, ?G3, ?G4 in *. rewrite Z1, Z2, M1, M2 in E2. rewrite <- Fi2, <- Fj2 in E2. rewrite Fi1, Fj1 in V1, V2.
    set (i' := freq h (- ki)) in *. set (j' := freq w (- kj)) in *. assert (Hi' : (i' < h)%nat) by (apply freq_lt; lia). assert (Hj' : (j' < w)%nat) by (apply freq_lt; lia).
    assert (NZ : ki <> 0%Z \/ kj <> 0%Z).
    { destruct (Z.eq_dec ki 0) as [Q1|Q1]; [|left; exact Q1]. right. intros Q2. apply N. rewrite <- Fi1, <- Fj1, Q1, Q2. unfold freq. rewrite !Zmod_0_l. reflexivity. }
    assert (N' : (i', j') <> (0, 0)%nat).
    { intros Q. injection Q as Q1 Q2. unfold i', j' in Q1, Q2. destruct NZ as [NZ|NZ]; apply NZ.
      - clear - Q1 Ri Hi. unfold freq in Q1. pose proof (Z.mod_pos_bound (- ki) (Z.of_nat h)). assert (((- ki) mod Z.of_nat h) = 0)%Z by lia. destruct (Z_lt_dec (- ki) 0); [rewrite <- (Z.mod_unique (- ki) (Z.of_nat h) (-1) (- ki + Z.of_nat h)) in * by lia; lia|rewrite Z.mod_small in * by lia; lia].
      - clear - Q2 Rj Hj. unfold freq in Q2. pose proof (Z.mod_pos_bound (- kj) (Z.of_nat w)). assert (((- kj) mod Z.of_nat w) = 0)%Z by lia. destruct (Z_lt_dec (- kj) 0); [rewrite <- (Z.mod_unique (- kj) (Z.of_nat w) (-1) (- kj + Z.of_nat w)) in * by lia; lia|rewrite Z.mod_small in * by lia; lia]. }
    apply (W i j Hi Hj N E1). intros W1. apply (W i' j' Hi' Hj' N' E2). intros W2.
    rewrite <- Ek2 in W1, W2. cbn [mat_at] in W1, W2. rewrite V1, V2 in W1. rewrite V3, V4 in W2.
    assert (SN : si <> 0 /\ sj <> 0).
    { destruct shape as [[fh fw]|]; cbn [frame_size good_shape] in St, G; destruct St as [St1 St2]; split; intros Q; [rewrite Q in St1; apply (@fZ_neq0 K (Z.max fh fw)); [lia|rewrite <- St1; ring]|rewrite Q in St2; apply (@fZ_neq0 K (Z.max fh fw)); [lia|rewrite <- St2; ring]| |];
      [rewrite Q in St1; apply (@fZ_neq0 K (Z.max 1 1)); [lia|rewrite <- St1; ring]|rewrite Q in St2; apply (@fZ_neq0 K (Z.max 1 1)); [lia|rewrite <- St2; ring]]. }
    destruct SN as [SN1 SN2].
    assert (MZ : forall u v, u <> 0 -> v <> 0 -> u * v <> 0). { intros u v U U' Q. apply U. transitivity (u * v * finv K v); [field; exact U'|rewrite Q; ring]. }
    destruct (Ht (- (fZ ki * si)) (fZ kj * sj)) as [T|T].
    { destruct NZ as [NZ|NZ]; [left|right; apply MZ; [apply fZ_neq0; exact NZ|exact SN2]]. intros Q. apply (MZ (fZ ki) si (fZ_neq0 K NZ) SN1). transitivity (- - (fZ ki * si)); [ring|rewrite Q; ring]. }
    - replace (- (fZ (- ki) * si)) with (- - (fZ ki * si)) in W2 by (rewrite fZ_opp; ring). replace (fZ (- kj) * sj) with (- (fZ kj * sj)) in W2 by (rewrite fZ_opp; ring). rewrite T in W2.
      apply (@within_apart angle sector _ 1 S2 eq_refl W1). replace (fZ 1 * pi) with pi by (rewrite fZ_1; ring). exact W2.
    - replace (- (fZ (- ki) * si)) with (- - (fZ ki * si)) in W2 by (rewrite fZ_opp; ring). replace (fZ (- kj) * sj) with (- (fZ kj * sj)) in W2 by (rewrite fZ_opp; ring). rewrite T in W2.
      apply (@within_apart angle sector _ (-1) S2 eq_refl W1). replace (arg (- (fZ ki * si)) (fZ kj * sj) + fZ (-1) * pi) with (arg (- (fZ ki * si)) (fZ kj * sj) - pi); [exact W2|]. change (-1)%Z with (- (1))%Z. rewrite fZ_opp, fZ_1. ring.
  Qed.
End S.
