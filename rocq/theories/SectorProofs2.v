(** Sectors of the index maps. *)
From Coq Require Import ZifyBool ZifyNat.
From Verif Require Import Base KernelProofs Ordered MapModel MapProofs SectorModel SectorProofs.
Set Implicit Arguments.
Ltac Zify.zify_post_hook ::= Z.div_mod_to_equations.

Section S.
  Variable K : OFld.
  Add Field Ksector2 : (flaw K).
  Local Notation "0" := (f0 K).
  Local Notation "1" := (f1 K).
  Local Infix "+" := (fadd K).
  Local Infix "*" := (fmul K).
  Local Infix "-" := (fsub K).
  Local Infix "/" := (fdiv K).
  Local Notation "- x" := (fopp K x).
  Implicit Types x y m : K.
  Local Notation fZ := (fZ K).
  Lemma two_neq0 : 1 + 1 <> 0.
  Proof. rewrite <- fZ_2. apply fZ_neq0. lia. Qed.
  (** * Rings *)
  Definition on_ring (kstep kv : K) (i : nat) : Prop :=
    flt K (fnat K i * kstep - kstep / fZ 2) kv = true /\ fle kv (fnat K i * kstep + kstep / fZ 2).
  Lemma on_ring_unique kstep kv i j : flt K 0 kstep = true -> on_ring kstep kv i -> on_ring kstep kv j -> i = j.
  Proof.
    intros Hk. assert (W : forall i j, (i < j)%nat -> on_ring kstep kv i -> on_ring kstep kv j -> False).
    { clear i j. intros i j H [_ H1] [H2 _]. apply to_lt in H2. apply to_le in H1.
      assert (P : fle 0 ((fnat K j - fnat K (S i)) * kstep)).
      { apply fle_mul_pos; [|apply flt_le; exact Hk]. rewrite <- !fZ_nat, <- fZ_sub. apply (@fZ_le K 0). lia. }
      rewrite fnat_S in P.
      apply (@absurd_lt K _ (lt_le _ H2 (le_le H1 P))). rewrite fZ_2. field. apply two_neq0. }
    intros Hi Hj. destruct (Nat.lt_trichotomy i j) as [L|[E|L]]; [exfalso; eapply W; eassumption|exact E|exfalso; eapply W; eassumption].
  Qed.
  Definition step_ring (kstep kv : K) (inside : bool) (s : Z * Z) (k : K) : Z * Z :=
    let (i, out) := s in let kmask := fleb K kv (k + kstep / fZ 2) && flt K (k - kstep / fZ 2) kv in ((i + 1)%Z, if kmask && inside then i else out).
  Lemma on_ring_mask kstep kv i : fleb K kv (fnat K i * kstep + kstep / fZ 2) && flt K (fnat K i * kstep - kstep / fZ 2) kv = true <-> on_ring kstep kv i.
  Proof. rewrite andb_true_iff, fleb_true. unfold on_ring. tauto. Qed.
  Lemma rings_fold kstep kv inside n : forall s out, flt K 0 kstep = true ->
    let r := snd (fold_left (step_ring kstep kv inside) (map (fun i => fnat K i * kstep) (seq s n)) (Z.of_nat s, out)) in
    (exists i, (s <= i < s + n)%nat /\ on_ring kstep kv i /\ inside = true /\ r = Z.of_nat i) \/ ((inside = false \/ forall i, (s <= i < s + n)%nat -> ~ on_ring kstep kv i) /\ r = out).
  Proof.
    induction n as [|n IH]; intros s out Hk; cbv zeta.
    - right. split; [right; intros; lia|reflexivity].
    - cbn [seq map fold_left].
      assert (Es : step_ring kstep kv inside (Z.of_nat s, out) (fnat K s * kstep) = (Z.of_nat (S s), if (fleb K kv (fnat K s * kstep + kstep / fZ 2) && flt K (fnat K s * kstep - kstep / fZ 2) kv) && inside then Z.of_nat s else out)).
      { unfold step_ring. f_equal. lia. }
      rewrite Es. clear Es.
      match goal with |- context [if ?b && inside then _ else _] => destruct b eqn:E end.
      + pose proof E as E'. apply on_ring_mask in E'. destruct inside.
        * cbn [andb]. destruct (IH (S s) (Z.of_nat s) Hk) as [(i & Hi & Hr & _ & _)|[_ Hr]].
          -- exfalso. pose proof (on_ring_unique Hk E' Hr). lia.
          -- left. exists s. split; [lia|]. split; [exact E'|]. split; [reflexivity|exact Hr].
        * cbn [andb]. destruct (IH (S s) out Hk) as [(i & _ & _ & D & _)|[_ Hr]]; [discriminate|]. right. split; [left; reflexivity|exact Hr].
      + cbn [andb]. destruct (IH (S s) out Hk) as [(i & Hi & Hr & D & Q)|[D Hr]].
        * left. exists i. split; [lia|]. auto.
        * right. split; [|exact Hr]. destruct D as [D|D]; [left; exact D|right]. intros i Hi C. destruct (Nat.eq_dec i s) as [->|N].
          -- apply on_ring_mask in C. congruence.
          -- apply (D i ltac:(lia) C).
  Qed.
  Variable pi : K.
  Variable floor : K -> Z.
  Hypothesis HF : floors K floor.
  Hypothesis Hpi : flt K 0 pi = true.

  Definition deg (d : K) : K := pi / fZ 180 * d.
  Lemma deg_pos d : flt K 0 d = true -> flt K 0 (deg d) = true.
  Proof using Hpi.
    intros H. unfold deg. apply flt_mul_pos; [|exact H]. replace (pi / fZ 180) with (pi * finv K (fZ 180)) by (field; apply fZ_neq0; lia).
    apply flt_mul_pos; [exact Hpi|]. apply flt_inv, fZ_pos. lia.
  Qed.
  Lemma deg_0 : deg 0 = 0.
  Proof using. unfold deg. field. apply fZ_neq0. lia. Qed.
  Lemma deg_le d : fle 0 d -> fle 0 (deg d).
  Proof using Hpi.
    intros H. apply fle_cases in H. destruct H as [L|E]; [apply flt_le, deg_pos; exact L|].
    rewrite <- E, deg_0. apply fle_refl.
  Qed.
  Lemma deg_sub d e : deg d - deg e = deg (d - e).
  Proof using. unfold deg. field. apply fZ_neq0. lia. Qed.
  Lemma deg_add d e : deg d + deg e = deg (d + e).
  Proof using. unfold deg. field. apply fZ_neq0. lia. Qed.
  Lemma deg_opp d : - deg d = deg (- d).
  Proof using. unfold deg. field. apply fZ_neq0. lia. Qed.
  Lemma deg_lt d e : flt K d e = true -> flt K (deg d) (deg e) = true.
  Proof using Hpi. intros H. eapply lt_by; [|apply deg_sub]. apply deg_pos, to_lt. exact H. Qed.
  Lemma deg_mono d e : fle d e -> fle (deg d) (deg e).
  Proof using Hpi. intros H. eapply le_by; [|apply deg_sub]. apply deg_le, to_le. exact H. Qed.

  (** The sector between [lo] and [hi] reaches beyond half a turn on one of the sides. *)
  Definition wraps (m lo hi : K) : bool := flt K m hi || flt K lo (- m).

  Theorem in_sector_spec M angle sector a : let m := deg M in let lo := deg (angle - sector / fZ 2) in let hi := deg (angle + sector / fZ 2) in
    (M = fZ 180 \/ M = fZ 90) -> fle (- M) angle -> fle angle M -> flt K 0 sector = true -> fle sector (fZ 180) -> fle (- m) a -> flt K a m = true ->
    (in_sector K pi floor m angle sector a = true <->
     exists k, let b := a + fZ k * (m + m) in if wraps m lo hi then flt K lo b = true /\ fle b hi else fle lo b /\ flt K b hi = true).
  Proof using HF Hpi.
    intros m lo hi HM A1 A2 S1 S2 B1 B2.
    assert (N2 : fZ 2 <> 0) by (apply fZ_neq0; lia).
    assert (Mp : flt K 0 M = true) by (destruct HM as [-> | ->]; apply fZ_pos; lia).
    assert (M9 : fle (fZ 180) (M + M)).
    { destruct HM as [-> | ->]; rewrite <- fZ_add; apply fZ_le; lia. }
    assert (Hs : flt K 0 (sector / fZ 2) = true).
    { replace (sector / fZ 2) with (sector * finv K (fZ 2)) by (field; exact N2). apply flt_mul_pos; [exact S1|]. apply flt_inv, fZ_pos. lia. }
    assert (Hh : fle (sector / fZ 2) M).
    { pose proof (to_le S2) as P. pose proof (to_le M9) as Q.
      apply (@le_by K _ _ ((fZ 180 - sector + (M + M - fZ 180)) * finv K (fZ 2))).
      - apply fle_mul_pos; [apply le_le; assumption|]. apply flt_le, flt_inv, fZ_pos. lia.
      - rewrite fZ_2 in *. field. exact N2. }
    assert (Hm : flt K 0 m = true) by (apply deg_pos; exact Mp).
    assert (EW : hi - lo = deg sector).
    { unfold hi, lo. rewrite deg_sub. f_equal. rewrite fZ_2 in *. field. exact N2. }
    assert (Hw : fle (hi - lo) (m + m)).
    { rewrite EW. unfold m. rewrite deg_add. apply deg_mono. eapply fle_trans; [exact S2|exact M9]. }
    assert (Hl1 : fle (- (m + m)) lo).
    { unfold m, lo. rewrite deg_add, deg_opp. apply deg_mono. eapply le_by; [apply (le_le (to_le A1) (to_le Hh))|ring]. }
    assert (Hl2 : flt K lo m = true).
    { unfold m, lo. apply deg_lt. eapply lt_by; [apply (lt_le _ Hs (to_le A2))|ring]. }
    assert (Hh1 : fle hi (m + m)).
    { unfold m, hi. rewrite deg_add. apply deg_mono. eapply le_by; [apply (le_le (to_le A2) (to_le Hh))|ring]. }
    assert (Hh2 : flt K (- m) hi = true).
    { unfold m, hi. rewrite deg_opp. apply deg_lt. eapply lt_by; [apply (lt_le _ Hs (to_le A1))|ring]. }
    unfold in_sector. fold (deg (angle + sector / fZ 2)) (deg (angle - sector / fZ 2)). fold lo hi. unfold wraps.
    destruct (flt K m hi) eqn:E1; cbn [orb].
    - rewrite (mod_high HF _ Hm E1 Hh1). cbv beta iota zeta. apply wrap_high; assumption.
    - destruct (flt K lo (- m)) eqn:E2.
      + rewrite (mod_low HF _ Hm E2 Hl1). cbv beta iota zeta. apply wrap_low; assumption.
      + apply no_wrap; assumption.
  Qed.

  Definition ceil (x : K) : Z := Z.opp (floor (- x)).
  Lemma ceil_spec x : flt K (fZ (ceil x) - 1) x = true /\ fle x (fZ (ceil x)).
  Proof using HF.
    destruct (HF (- x)) as [H1 H2]. unfold ceil. rewrite fZ_opp. rewrite fZ_succ in H2. apply to_lt in H2. apply to_le in H1. split.
    - eapply lt_by; [exact H2|ring].
    - eapply le_by; [exact H1|ring].
  Qed.
  (** The ring of each length up to [kmax] is among those listed. *)
  Lemma ring_exists kstep kmax kv : flt K 0 kstep = true -> fle 0 kv -> fle kv kmax ->
    exists i, lt i (Z.to_nat (ceil ((kmax + kstep) / kstep))) /\ on_ring kstep kv i.
  Proof using HF.
    clear Hpi. intros Hk H0 H1. assert (N : kstep <> 0) by (intros ->; rewrite flt_irrefl in Hk; discriminate).
    pose proof two_neq0 as N2. pose proof (flt_inv K _ Hk) as Hi.
    set (z := ceil (kv / kstep - finv K (1 + 1))). destruct (ceil_spec (kv / kstep - finv K (1 + 1))) as [C1 C2]. fold z in C1, C2.
    destruct (ceil_spec ((kmax + kstep) / kstep)) as [D1 D2].
    assert (Hh : flt K 0 (finv K (1 + 1)) = true) by (apply flt_inv; rewrite <- fZ_2; apply fZ_pos; lia).
    assert (Z0 : (0 <= z)%Z).
    { assert (P : flt K (fZ (-1)) (fZ z) = true); [|apply fZ_lt_inv in P; lia].
      eapply flt_le_trans; [|exact C2]. replace (fZ (-1)) with (- (1)) by (rewrite <- fZ_1, <- fZ_opp; reflexivity).
      apply (@lt_by K _ _ (finv K (1 + 1) + kv * finv K kstep)); [|field; auto].
      apply lt_le; [exact Hh|]. apply fle_mul_pos; [exact H0|apply flt_le; exact Hi]. }
    assert (Zn : Z.lt z (ceil ((kmax + kstep) / kstep))).
    { apply (@fZ_lt_inv K). eapply flt_le_trans; [|exact D2]. apply to_lt in C1.
      apply (@lt_by K _ _ ((kv / kstep - finv K (1 + 1) - (fZ z - 1)) + (finv K (1 + 1) + (kmax - kv) * finv K kstep))); [|field; auto].
      apply lt_add; [exact C1|]. apply lt_le; [exact Hh|]. apply fle_mul_pos; [apply to_le; exact H1|apply flt_le; exact Hi]. }
    exists (Z.to_nat z). split; [lia|]. unfold on_ring. rewrite <- fZ_nat, Z2Nat.id by exact Z0. rewrite fZ_2. apply to_lt in C1. apply to_le in C2. split.
    - apply (@lt_by K _ _ ((kv / kstep - finv K (1 + 1) - (fZ z - 1)) * kstep)); [apply flt_mul_pos; assumption|field; auto].
    - apply (@le_by K _ _ ((fZ z - (kv / kstep - finv K (1 + 1))) * kstep)); [apply fle_mul_pos; [assumption|apply flt_le; exact Hk]|field; auto].
  Qed.
End S.
