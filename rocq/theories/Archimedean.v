(** The rational numbers satisfy the hypotheses of the theorems about mirror and the ADC. *)
From Coq Require Import QArith Qround Qcanon ZifyBool ZifyNat.
From Verif Require Import Base Ordered SimModel SimProofs SimProofs2.
Set Implicit Arguments.

Lemma fnat_Qc n : (this (fnat QcF n) == inject_Z (Z.of_nat n))%Q.
Proof.
  induction n as [|n IH]; [reflexivity|]. rewrite fnat_S. change (this (1 + fnat QcF n)%Qc == inject_Z (Z.of_nat (S n)))%Q. cbn [this Qcplus Q2Qc]. rewrite Qred_correct, IH.
  rewrite Nat2Z.inj_succ, <- Z.add_1_l, inject_Z_plus. reflexivity.
Qed.
Lemma Qc_archimedean : archimedean QcO.
Proof.
  intros x. exists (Z.to_nat (Qfloor (this x) + 1)). apply qlt_spec. unfold Qclt. rewrite fnat_Qc. eapply Qlt_le_trans; [apply Qlt_floor|]. rewrite <- Zle_Qle. lia.
Qed.
(** int() of a non-negative rational number *)
Definition qtrunc (x : QcO) : nat := Z.to_nat (Qfloor (this x)).
Lemma qtrunc_ok : truncates QcO qtrunc.
Proof.
  intros x Hx. assert (N : (0 <= this x)%Q). { destruct (Qlt_le_dec (this x) 0) as [L|L]; [|exact L]. exfalso. unfold fle in Hx. change (qlt x 0%Qc = false) in Hx. assert (X : qlt x 0%Qc = true) by (apply qlt_spec; exact L). congruence. }
  assert (F : (0 <= Qfloor (this x))%Z). { apply (Qfloor_resp_le 0 (this x)) in N. exact N. }
  unfold qtrunc. split.
  - unfold fle. change (qlt x (fnat QcF (Z.to_nat (Qfloor (this x)))) = false). destruct (qlt x _) eqn:E; [|reflexivity]. exfalso. apply qlt_spec in E. unfold Qclt in E. rewrite fnat_Qc, Z2Nat.id in E by exact F. pose proof (Qfloor_le (this x)). apply (Qlt_not_le _ _ E). assumption.
  - change (qlt x (fnat QcF (S (Z.to_nat (Qfloor (this x))))) = true). apply qlt_spec. unfold Qclt. rewrite fnat_Qc. eapply Qlt_le_trans; [apply Qlt_floor|]. rewrite <- Zle_Qle. lia.
Qed.
