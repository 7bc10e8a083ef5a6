(** The floor function of the rational numbers. *)
From Coq Require Import QArith Qround Qcanon ZifyBool ZifyNat.
From Verif Require Import Base Ordered SimProofs2 Archimedean SectorModel SectorProofs.
Set Implicit Arguments.

Lemma fZ_Qc z : (this (fZ QcO z) == inject_Z z)%Q.
Proof.
  destruct z as [|p|p]; [reflexivity| |].
  - change (fZ QcO (Zpos p)) with (fnat QcF (Pos.to_nat p)). rewrite fnat_Qc, positive_nat_Z. reflexivity.
  - change (fZ QcO (Zneg p)) with (Qcopp (fnat QcF (Pos.to_nat p))). cbn [this Qcopp Q2Qc]. rewrite Qred_correct, fnat_Qc, positive_nat_Z. reflexivity.
Qed.
Definition qfloor (x : QcO) : Z := Qfloor (this x).
Lemma qfloor_ok : floors QcO qfloor.
Proof.
  intros x. split.
  - unfold fle. change (qlt x (fZ QcO (qfloor x)) = false). destruct (qlt x _) eqn:E; [|reflexivity]. exfalso. apply qlt_spec in E. unfold Qclt in E. rewrite fZ_Qc in E. apply (Qlt_not_le _ _ E). apply Qfloor_le.
  - change (qlt x (fZ QcO (qfloor x + 1)) = true). apply qlt_spec. unfold Qclt. rewrite fZ_Qc. apply Qlt_floor.
Qed.
