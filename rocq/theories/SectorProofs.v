(** Proofs about sectors, rings and k_select. *)
From Coq Require Import ZifyBool ZifyNat.
From Verif Require Import Base KernelProofs Ordered MapModel MapProofs SectorModel.
Set Implicit Arguments.
Ltac Zify.zify_post_hook ::= Z.div_mod_to_equations.

Section S.
  Variable K : OFld.
  Add Field Ksector : (flaw K).
  Local Notation "0" := (f0 K).
  Local Notation "1" := (f1 K).
  Local Infix "+" := (fadd K).
  Local Infix "*" := (fmul K).
  Local Infix "-" := (fsub K).
  Local Infix "/" := (fdiv K).
  Local Notation "- x" := (fopp K x).
  Implicit Types x y m : K.
  Local Notation fZ := (fZ K).

  (** Linear inequalities: what is to be shown is a sum of what is known. *)
  Lemma le_by x y d : fle 0 d -> y - x = d -> fle x y.
  Proof. intros H E. apply fle_sub. rewrite E. exact H. Qed.
  Lemma lt_by x y d : flt K 0 d = true -> y - x = d -> flt K x y = true.
  Proof. intros H E. apply flt_sub. rewrite E. exact H. Qed.
  Lemma le_le x y : fle 0 x -> fle 0 y -> fle 0 (x + y).
  Proof. intros H1 H2. replace 0 with (0 + 0) by ring. apply fle_add2; assumption. Qed.
  Lemma lt_le x y : flt K 0 x = true -> fle 0 y -> flt K 0 (x + y) = true.
  Proof. intros H1 H2. eapply flt_le_trans; [exact H1|]. apply (@le_by _ _ y); [exact H2|ring]. Qed.
  Lemma absurd_lt d : flt K 0 d = true -> d = 0 -> False.
  Proof. intros H E. rewrite E, flt_irrefl in H. discriminate. Qed.
  Lemma to_le x y : fle x y -> fle 0 (y - x).
  Proof. apply fle_sub. Qed.
  Lemma to_lt x y : flt K x y = true -> flt K 0 (y - x) = true.
  Proof. apply flt_sub. Qed.
  Lemma flt_false x y : flt K x y = false <-> fle y x.
  Proof. reflexivity. Qed.
  Lemma fleb_true x y : fleb K x y = true <-> fle x y.
  Proof. unfold fleb, fle. destruct (flt K y x); cbn [negb]; split; intros; congruence. Qed.

  (** Integers *)
  Lemma fZ_nat n : fZ (Z.of_nat n) = fnat K n.
  Proof. destruct n as [|n]; [reflexivity|]. unfold SectorModel.fZ. cbn [Z.of_nat]. rewrite SuccNat2Pos.id_succ. reflexivity. Qed.
  Lemma fZ_negnat n : fZ (- Z.of_nat n) = - fnat K n.
  Proof. destruct n as [|n]; [cbn; change (fnat K 0) with 0; ring|]. unfold SectorModel.fZ. cbn [Z.of_nat Z.opp]. rewrite SuccNat2Pos.id_succ. reflexivity. Qed.
  Lemma fZ_succ z : fZ (z + 1) = fZ z + 1.
  Proof.
    destruct (Z_le_dec 0 z) as [H|H].
    - rewrite <- (Z2Nat.id z) by exact H. rewrite Z.add_1_r, <- Nat2Z.inj_succ, !fZ_nat, fnat_S. ring.
    - replace z with (- Z.of_nat (S (Z.to_nat (- z - 1))))%Z by lia. replace (- Z.of_nat (S (Z.to_nat (- z - 1))) + 1)%Z with (- Z.of_nat (Z.to_nat (- z - 1)))%Z by lia.
      rewrite !fZ_negnat, fnat_S. ring.
  Qed.
  Lemma fZ_add a b : fZ (a + b) = fZ a + fZ b.
  Proof.
    revert b. apply Z.bi_induction.
    - intros x y ->. reflexivity.
    - rewrite Z.add_0_r. change (fZ 0) with 0. ring.
    - intros n. replace (a + Z.succ n)%Z with (a + n + 1)%Z by lia. replace (Z.succ n) with (n + 1)%Z by lia. rewrite !fZ_succ. split; intros H; [rewrite H; ring|].
      transitivity (fZ (a + n) + 1 - 1); [ring|]. rewrite H. ring.
  Qed.
  Lemma fZ_opp a : fZ (- a) = - fZ a.
  Proof. transitivity (fZ (- a + a) - fZ a); [rewrite fZ_add; ring|]. rewrite Z.add_opp_diag_l. change (fZ 0) with 0. ring. Qed.
  Lemma fZ_sub a b : fZ (a - b) = fZ a - fZ b.
  Proof. unfold Z.sub. rewrite fZ_add, fZ_opp. ring. Qed.
  Lemma fZ_pos a : (0 < a)%Z -> flt K 0 (fZ a) = true.
  Proof. intros H. rewrite <- (Z2Nat.id a) by lia. rewrite fZ_nat. apply flt_fnat. lia. Qed.
  Lemma fZ_lt a b : (a < b)%Z -> flt K (fZ a) (fZ b) = true.
  Proof. intros H. apply flt_sub. rewrite <- fZ_sub. apply fZ_pos. lia. Qed.
  Lemma fZ_le a b : (a <= b)%Z -> fle (fZ a) (fZ b).
  Proof. intros H. destruct (Z.eq_dec a b) as [->|N]; [apply fle_refl|]. apply flt_le, fZ_lt. lia. Qed.
  Lemma fZ_lt_inv a b : flt K (fZ a) (fZ b) = true -> (a < b)%Z.
  Proof. intros H. destruct (Z_lt_dec a b) as [L|L]; [exact L|]. pose proof (@fZ_le b a ltac:(lia)) as P. unfold fle in P. congruence. Qed.
  Lemma fZ_neq0 a : a <> 0%Z -> fZ a <> 0.
  Proof. intros H E. destruct (Z_lt_dec 0 a) as [L|L]; [apply (absurd_lt (fZ_pos L) E)|]. pose proof (@fZ_pos (- a) ltac:(lia)) as P. apply (absurd_lt P). rewrite fZ_opp, E. ring. Qed.
  Lemma fZ_2 : fZ 2 = 1 + 1.
  Proof. change 2%Z with (0 + 1 + 1)%Z. rewrite !fZ_succ. change (fZ 0) with 0. ring. Qed.

  Lemma fZ_1 : fZ 1 = 1.
  Proof. change 1%Z with (0 + 1)%Z. rewrite fZ_succ. change (fZ 0) with 0. ring. Qed.
  Lemma fZ_m2 : fZ (-2)%Z = - (1 + 1).
  Proof. rewrite <- fZ_2. exact (fZ_opp 2). Qed.
  Lemma fZ_m1 : fZ (-2 + 1)%Z = fopp K 1.
  Proof. rewrite fZ_succ, fZ_m2. ring. Qed.
  (** [floor] is the floor function. *)
  Definition floors (floor : K -> Z) : Prop := forall x, fle (fZ (floor x)) x /\ flt K x (fZ (floor x + 1)) = true.
  Variable floor : K -> Z.
  Hypothesis HF : floors floor.
  Lemma floor_unique x z : fle (fZ z) x -> flt K x (fZ (z + 1)) = true -> floor x = z.
  Proof.
    intros H1 H2. destruct (HF x) as [F1 F2]. assert (A : flt K (fZ z) (fZ (floor x + 1)) = true) by (eapply fle_lt_trans; eassumption).
    assert (B : flt K (fZ (floor x)) (fZ (z + 1)) = true) by (eapply fle_lt_trans; eassumption). apply fZ_lt_inv in A, B. lia.
  Qed.

  (** The two reductions of the angle *)
  Lemma mod_high m h : flt K 0 m = true -> flt K m h = true -> fle h (m + m) -> pymod K floor h (- m) = h - (m + m).
  Proof.
    intros Hm H1 H2. assert (N : m <> 0) by (intros ->; rewrite flt_irrefl in Hm; discriminate). unfold pymod.
    assert (E : h / - m = - (h / m)) by (field; split; [exact N|]; intros E; apply N; transitivity (- - m); [ring|rewrite E; ring]).
    rewrite (@floor_unique (h / - m) (-2)).
    - rewrite fZ_m2. ring.
    - rewrite E, fZ_m2. apply (@le_by _ _ ((m + m - h) * finv K m)); [|field; exact N]. apply fle_mul_pos; [apply to_le; exact H2|apply flt_le, flt_inv; exact Hm].
    - rewrite E. rewrite fZ_m1.
      apply (@lt_by _ _ ((h - m) * finv K m)); [|field; exact N]. apply flt_mul_pos; [apply to_lt; exact H1|apply flt_inv; exact Hm].
  Qed.
  Lemma mod_low m l : flt K 0 m = true -> flt K l (- m) = true -> fle (- (m + m)) l -> pymod K floor l m = l + (m + m).
  Proof.
    intros Hm H1 H2. assert (N : m <> 0) by (intros ->; rewrite flt_irrefl in Hm; discriminate). unfold pymod.
    rewrite (@floor_unique (l / m) (-2)).
    - rewrite fZ_m2. ring.
    - rewrite fZ_m2. apply (@le_by _ _ ((l - - (m + m)) * finv K m)); [|field; exact N]. apply fle_mul_pos; [apply to_le; exact H2|apply flt_le, flt_inv; exact Hm].
    - rewrite fZ_m1.
      apply (@lt_by _ _ ((- m - l) * finv K m)); [|field; exact N]. apply flt_mul_pos; [apply to_lt; exact H1|apply flt_inv; exact Hm].
  Qed.

  Lemma lt_add x y : flt K 0 x = true -> flt K 0 y = true -> flt K 0 (x + y) = true.
  Proof. intros H1 H2. apply lt_le; [exact H1|apply flt_le; exact H2]. Qed.
  Lemma contra_le x y : flt K x y = true -> fle y x -> False.
  Proof. unfold fle. congruence. Qed.
  (** [k] whole turns of [m + m]: the sign of [k] decides the size. *)
  Lemma turns_up m k : fle 0 m -> (1 <= k)%Z -> fle (m + m) (fZ k * (m + m)).
  Proof.
    intros Hm Hk. apply (@le_by _ _ (fZ (k - 1) * (m + m))).
    - apply fle_mul_pos; [rewrite <- (Z2Nat.id (k - 1)) by lia; rewrite fZ_nat; destruct (Z.to_nat (k - 1)) as [|n]; [apply fle_refl|apply flt_le, flt_fnat; discriminate]|apply le_le; exact Hm].
    - rewrite fZ_sub, fZ_1. ring.
  Qed.
  Lemma turns_up2 m k : fle 0 m -> (2 <= k)%Z -> fle (m + m + (m + m)) (fZ k * (m + m)).
  Proof.
    intros Hm Hk. pose proof (@turns_up m (k - 1) Hm ltac:(lia)) as P. apply to_le in P. eapply le_by; [exact P|]. rewrite fZ_sub, fZ_1. ring.
  Qed.
  Lemma turns_down m k : fle 0 m -> (k <= -1)%Z -> fle (fZ k * (m + m)) (- (m + m)).
  Proof.
    intros Hm Hk. pose proof (@turns_up m (- k) Hm ltac:(lia)) as P. apply to_le in P. eapply le_by; [exact P|]. rewrite fZ_opp. ring.
  Qed.
  Lemma turns_down2 m k : fle 0 m -> (k <= -2)%Z -> fle (fZ k * (m + m)) (- (m + m + (m + m))).
  Proof.
    intros Hm Hk. pose proof (@turns_up2 m (- k) Hm ltac:(lia)) as P. apply to_le in P. eapply le_by; [exact P|]. rewrite fZ_opp. ring.
  Qed.

  Section Angles.
    (** Half a turn, the ends of the sector, an angle *)
    Variables m low high a : K.
    Hypothesis Hm : flt K 0 m = true.
    Hypothesis Hw : fle (high - low) (m + m).
    Hypothesis Hl1 : fle (- (m + m)) low.
    Hypothesis Hl2 : flt K low m = true.
    Hypothesis Hh1 : fle high (m + m).
    Hypothesis Hh2 : flt K (- m) high = true.
    Hypothesis Ha1 : fle (- m) a.
    Hypothesis Ha2 : flt K a m = true.
    Let Hm0 : fle 0 m := flt_le K _ _ Hm.
    Let L1 := to_le Hl1.
    Let L2 := to_lt _ _ Hl2.
    Let H1' := to_le Hh1.
    Let H2' := to_lt _ _ Hh2.
    Let A1 := to_le Ha1.
    Let A2 := to_lt _ _ Ha2.
    Let W' := to_le Hw.

    Lemma wrap_high : flt K m high = true -> (negb (fleb K a low && flt K (high - (m + m)) a) = true <-> exists k, flt K low (a + fZ k * (m + m)) = true /\ fle (a + fZ k * (m + m)) high).
    Proof using Hm Hw Hl1 Hl2 Hh1 Hh2 Ha1 Ha2.
      intros Hx. pose proof (to_lt _ _ Hx) as X. split.
      - intros H. rewrite negb_true_iff, andb_false_iff in H. destruct H as [H|H].
        + exists 0%Z. change (fZ 0) with 0. replace (a + 0 * (m + m)) with a by ring. split.
          * destruct (flt K low a) eqn:E; [reflexivity|]. apply fleb_true in E. congruence.
          * apply flt_le. exact (flt_trans K _ _ _ Ha2 Hx).
        + exists 1%Z. rewrite fZ_1. split.
          * apply (@lt_by _ _ ((a - - m) + (m - low))); [|ring]. replace ((a - - m) + (m - low)) with ((m - low) + (a - - m)) by ring. apply lt_le; assumption.
          * rewrite flt_false in H. apply to_le in H. eapply le_by; [exact H|]. ring.
      - intros (k & K1 & K2). rewrite negb_true_iff, andb_false_iff.
        assert (C : k = 0%Z \/ k = 1%Z \/ (2 <= k)%Z \/ (k <= -1)%Z) by lia. destruct C as [->|[->|[C|C]]].
        + left. change (fZ 0) with 0 in K1. replace (a + 0 * (m + m)) with a in K1 by ring. destruct (fleb K a low) eqn:E; [|reflexivity]. apply fleb_true in E. exfalso. exact (contra_le K1 E).
        + right. rewrite fZ_1 in K2. rewrite flt_false. apply to_le in K2. eapply le_by; [exact K2|]. ring.
        + exfalso. pose proof (to_le (turns_up2 Hm0 C)) as T. apply to_le in K2.
          apply (@absurd_lt (m + ((fZ k * (m + m) - (m + m + (m + m))) + ((high - (a + fZ k * (m + m))) + ((a - - m) + (m + m - high)))))); [|ring].
          apply lt_le; [exact Hm|]. apply le_le; [exact T|]. apply le_le; [exact K2|]. apply le_le; assumption.
        + exfalso. pose proof (to_le (turns_down Hm0 C)) as T. apply to_lt in K1.
          apply (@absurd_lt ((high - m) + ((a + fZ k * (m + m) - low) + ((m - a) + ((- (m + m) - fZ k * (m + m)) + (m + m - (high - low))))))); [|ring].
          apply lt_add; [exact X|]. apply lt_add; [exact K1|]. apply lt_le; [exact A2|]. apply le_le; assumption.
    Qed.
    Lemma wrap_low : flt K low (- m) = true -> (negb (fleb K a (low + (m + m)) && flt K high a) = true <-> exists k, flt K low (a + fZ k * (m + m)) = true /\ fle (a + fZ k * (m + m)) high).
    Proof using Hm Hw Hl1 Hl2 Hh1 Hh2 Ha1 Ha2.
      intros Hx. pose proof (to_lt _ _ Hx) as X. split.
      - intros H. rewrite negb_true_iff, andb_false_iff in H. destruct H as [H|H].
        + exists (-1)%Z. replace (fZ (-1)) with (- (1)) by (rewrite <- fZ_1, <- fZ_opp; reflexivity).
          assert (P : flt K (low + (m + m)) a = true). { destruct (flt K (low + (m + m)) a) eqn:E; [reflexivity|]. apply fleb_true in E. congruence. }
          apply to_lt in P. split.
          * eapply lt_by; [exact P|ring].
          * apply (@le_by _ _ ((high - - m) + (m - a))); [|ring]. apply flt_le, lt_add; assumption.
        + exists 0%Z. change (fZ 0) with 0. replace (a + 0 * (m + m)) with a by ring. split; [|exact H].
          eapply flt_le_trans; [exact Hx|exact Ha1].
      - intros (k & K1 & K2). rewrite negb_true_iff, andb_false_iff.
        assert (C : k = 0%Z \/ k = (-1)%Z \/ (1 <= k)%Z \/ (k <= -2)%Z) by lia. destruct C as [->|[->|[C|C]]].
        + right. change (fZ 0) with 0 in K2. replace (a + 0 * (m + m)) with a in K2 by ring. exact K2.
        + left. replace (fZ (-1)) with (- (1)) in K1 by (rewrite <- fZ_1, <- fZ_opp; reflexivity). destruct (fleb K a (low + (m + m))) eqn:E; [|reflexivity]. apply fleb_true in E. exfalso.
          apply (contra_le K1). apply to_le in E. eapply le_by; [exact E|]. ring.
        + exfalso. pose proof (to_le (turns_up Hm0 C)) as T. apply to_le in K2.
          apply (@absurd_lt ((- m - low) + ((high - (a + fZ k * (m + m))) + ((a - - m) + ((fZ k * (m + m) - (m + m)) + (m + m - (high - low))))))); [|ring].
          apply lt_le; [exact X|]. apply le_le; [exact K2|]. apply le_le; [exact A1|]. apply le_le; assumption.
        + exfalso. pose proof (to_le (turns_down2 Hm0 C)) as T. apply to_lt in K1.
          apply (@absurd_lt ((a + fZ k * (m + m) - low) + ((m - a) + (m + ((low - - (m + m)) + (- (m + m + (m + m)) - fZ k * (m + m))))))); [|ring].
          apply lt_add; [exact K1|]. apply lt_add; [exact A2|]. apply lt_le; [exact Hm|]. apply le_le; assumption.
    Qed.
    Lemma no_wrap : flt K m high = false -> flt K low (- m) = false -> (flt K a high && fleb K low a = true <-> exists k, fle low (a + fZ k * (m + m)) /\ flt K (a + fZ k * (m + m)) high = true).
    Proof using Hm Ha1 Ha2.
      intros X1 X2. rewrite flt_false in X1, X2. apply to_le in X1. apply to_le in X2. rewrite andb_true_iff, fleb_true. split.
      - intros [H1 H2]. exists 0%Z. change (fZ 0) with 0. replace (a + 0 * (m + m)) with a by ring. auto.
      - intros (k & K1 & K2). assert (C : k = 0%Z \/ (1 <= k)%Z \/ (k <= -1)%Z) by lia. destruct C as [->|[C|C]].
        + change (fZ 0) with 0 in K1, K2. replace (a + 0 * (m + m)) with a in K1, K2 by ring. auto.
        + exfalso. pose proof (to_le (turns_up Hm0 C)) as T. apply to_lt in K2.
          apply (@absurd_lt ((high - (a + fZ k * (m + m))) + ((a - - m) + ((fZ k * (m + m) - (m + m)) + (m - high))))); [|ring].
          apply lt_le; [exact K2|]. apply le_le; [exact A1|]. apply le_le; assumption.
        + exfalso. pose proof (to_le (turns_down Hm0 C)) as T. apply to_le in K1.
          apply (@absurd_lt ((m - a) + ((a + fZ k * (m + m) - low) + ((- (m + m) - fZ k * (m + m)) + (low - - m))))); [|ring].
          apply lt_le; [exact A2|]. apply le_le; [exact K1|]. apply le_le; assumption.
    Qed.
  End Angles.
End S.
