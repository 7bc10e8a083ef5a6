(** Ordered fields, in which values of arrays are compared: exact arithmetic, no NaN.
    The rational and the real numbers are instances. *)
From Coq Require Import QArith Qcanon.
From Verif Require Import Base.
Set Implicit Arguments.

Record OFld := {
  ofld :> Fld;
  flt : ofld -> ofld -> bool;
  flt_irrefl : forall x, flt x x = false;
  flt_trans : forall x y z, flt x y = true -> flt y z = true -> flt x z = true;
  flt_total : forall x y, flt x y = false -> flt y x = false -> x = y;
  flt_add : forall x y z, flt x y = true -> flt (fadd ofld x z) (fadd ofld y z) = true;
  flt_mul : forall x y z, flt x y = true -> flt (f0 ofld) z = true -> flt (fmul ofld x z) (fmul ofld y z) = true
}.

(** Rational numbers *)
Definition qlt (x y : QcF) : bool := match Qccompare x y with Lt => true | _ => false end.
Lemma qlt_spec (x y : Qc) : qlt x y = true <-> Qclt x y.
Proof. unfold qlt. rewrite Qclt_alt. destruct (x ?= y)%Qc; split; congruence. Qed.
Lemma qlt_irrefl (x : Qc) : qlt x x = false.
Proof. destruct (qlt x x) eqn:E; [|reflexivity]. apply qlt_spec in E. exfalso. exact (Qclt_not_eq _ _ E eq_refl). Qed.
Lemma qlt_trans (x y z : Qc) : qlt x y = true -> qlt y z = true -> qlt x z = true.
Proof. rewrite !qlt_spec. apply Qclt_trans. Qed.
Lemma qlt_total (x y : Qc) : qlt x y = false -> qlt y x = false -> x = y.
Proof.
  intros H1 H2. destruct (Qc_dec x y) as [[H|H]|H]; [| |exact H]; exfalso; apply qlt_spec in H; congruence.
Qed.
Lemma qlt_add (x y z : Qc) : qlt x y = true -> qlt (x + z)%Qc (y + z)%Qc = true.
Proof. rewrite !qlt_spec. intros H. unfold Qclt in *. cbn [this Qcplus Q2Qc] in *. rewrite !Qred_correct. apply Qplus_lt_l. exact H. Qed.
Lemma qlt_mul (x y z : Qc) : qlt x y = true -> qlt 0%Qc z = true -> qlt (x * z)%Qc (y * z)%Qc = true.
Proof. rewrite !qlt_spec. intros H1 H2. apply Qcmult_lt_compat_r; assumption. Qed.
Definition QcO : OFld :=
  {| ofld := QcF; flt := qlt; flt_irrefl := qlt_irrefl; flt_trans := qlt_trans; flt_total := qlt_total; flt_add := qlt_add; flt_mul := qlt_mul |}.

Section Order.
  Variable K : OFld.
  Add Field Kordered : (flaw K).
  Local Notation "0" := (f0 K).
  Local Notation "1" := (f1 K).
  Local Infix "+" := (fadd K).
  Local Infix "*" := (fmul K).
  Local Infix "-" := (fsub K).
  Local Notation "- x" := (fopp K x).
  Implicit Types x y z : K.
  (** x <= y *)
  Definition fle x y : Prop := flt K y x = false.

  Lemma fle_refl x : fle x x.
  Proof. apply flt_irrefl. Qed.
  Lemma flt_asym x y : flt K x y = true -> flt K y x = false.
  Proof. intros H. destruct (flt K y x) eqn:E; [|reflexivity]. rewrite <- (flt_irrefl K x). symmetry. exact (flt_trans K _ _ _ H E). Qed.
  Lemma flt_le x y : flt K x y = true -> fle x y.
  Proof. apply flt_asym. Qed.
  Lemma fle_cases x y : fle x y <-> flt K x y = true \/ x = y.
  Proof.
    unfold fle. split.
    - intros H. destruct (flt K x y) eqn:E; [auto|right]. symmetry. apply flt_total; assumption.
    - intros [H|<-]; [apply flt_asym; exact H|apply flt_irrefl].
  Qed.
  Lemma fle_total x y : fle x y \/ fle y x.
  Proof. unfold fle. destruct (flt K y x) eqn:E; [|auto]. right. apply flt_asym. exact E. Qed.
  Lemma fle_antisym x y : fle x y -> fle y x -> x = y.
  Proof. intros H1 H2. apply flt_total; assumption. Qed.
  Lemma fle_trans x y z : fle x y -> fle y z -> fle x z.
  Proof.
    rewrite !fle_cases. intros [H1|<-] [H2|<-]; auto. left. exact (flt_trans K _ _ _ H1 H2).
  Qed.
  Lemma fle_lt_trans x y z : fle x y -> flt K y z = true -> flt K x z = true.
  Proof. rewrite fle_cases. intros [H1|<-] H2; [exact (flt_trans K _ _ _ H1 H2)|exact H2]. Qed.
  Lemma flt_le_trans x y z : flt K x y = true -> fle y z -> flt K x z = true.
  Proof. rewrite fle_cases. intros H1 [H2|<-]; [exact (flt_trans K _ _ _ H1 H2)|exact H1]. Qed.
  Lemma fle_add x y z : fle x y -> fle (x + z) (y + z).
  Proof. rewrite !fle_cases. intros [H|<-]; [left; apply flt_add; exact H|right; reflexivity]. Qed.
  Lemma fle_add2 x y z w : fle x y -> fle z w -> fle (x + z) (y + w).
  Proof.
    intros H1 H2. apply fle_trans with (y + z); [apply fle_add; exact H1|].
    replace (y + z) with (z + y) by ring. replace (y + w) with (w + y) by ring. apply fle_add. exact H2.
  Qed.
  Lemma flt_sub x y : flt K x y = true <-> flt K 0 (y - x) = true.
  Proof.
    split; intros H.
    - replace 0 with (x + - x) by ring. replace (y - x) with (y + - x) by ring. apply flt_add. exact H.
    - replace x with (0 + x) by ring. replace y with (y - x + x) by ring. apply flt_add. exact H.
  Qed.
  Lemma fle_sub x y : fle x y <-> fle 0 (y - x).
  Proof.
    rewrite !fle_cases, (flt_sub x y). split; (intros [H|H]; [left; exact H|right]).
    - rewrite H. ring.
    - replace y with (y - x + x) by ring. rewrite <- H. ring.
  Qed.
  Lemma flt_opp x y : flt K x y = true <-> flt K (- y) (- x) = true.
  Proof. rewrite (flt_sub x y), (flt_sub (- y)). replace (- x - - y) with (y - x) by ring. reflexivity. Qed.
  Lemma flt_mul_pos x y : flt K 0 x = true -> flt K 0 y = true -> flt K 0 (x * y) = true.
  Proof. intros H1 H2. replace 0 with (0 * y) by ring. apply flt_mul; assumption. Qed.
  Lemma fle_mul_pos x y : fle 0 x -> fle 0 y -> fle 0 (x * y).
  Proof.
    rewrite !fle_cases. intros [H1|<-] [H2|<-]; [left; apply flt_mul_pos; assumption|right; ring|right; ring|right; ring].
  Qed.
  Lemma fle_mul x y z : fle x y -> fle 0 z -> fle (z * x) (z * y).
  Proof. rewrite (fle_sub x y), (fle_sub (z * x)). intros H1 H2. replace (z * y - z * x) with (z * (y - x)) by ring. apply fle_mul_pos; assumption. Qed.
  Lemma one_neq0 : 1 <> 0.
  Proof. exact (F_1_neq_0 (flaw K)). Qed.
  Lemma flt_0_1 : flt K 0 1 = true.
  Proof.
    destruct (flt K 0 1) eqn:E; [reflexivity|]. exfalso. destruct (flt K 1 0) eqn:E2.
    - assert (H : flt K 0 (fopp K 1 * fopp K 1) = true).
      { assert (flt K 0 (fopp K 1) = true) by (replace 0 with (fopp K 0) by ring; rewrite <- flt_opp; exact E2). apply flt_mul_pos; assumption. }
      replace (fopp K 1 * fopp K 1) with 1 in H by ring. congruence.
    - apply one_neq0. apply flt_total; assumption.
  Qed.
  Lemma flt_fnat n : n <> 0%nat -> flt K 0 (fnat K n) = true.
  Proof.
    destruct n as [|n]; [congruence|]. intros _. induction n as [|n IH].
    - change (fnat K 1) with (1 + 0). replace (1 + 0) with 1 by ring. apply flt_0_1.
    - rewrite fnat_S. eapply flt_trans; [exact IH|]. replace (fnat K (S n)) with (0 + fnat K (S n)) at 1 by ring. apply flt_add. apply flt_0_1.
  Qed.
  Lemma flt_neq x y : flt K x y = true -> x <> y.
  Proof. intros H ->. rewrite flt_irrefl in H. discriminate. Qed.
  Lemma flt_inv x : flt K 0 x = true -> flt K 0 (finv K x) = true.
  Proof.
    intros H. assert (Hx : x <> 0) by (intros ->; rewrite flt_irrefl in H; discriminate).
    destruct (flt K 0 (finv K x)) eqn:E; [reflexivity|]. exfalso. destruct (flt K (finv K x) 0) eqn:E2.
    - pose proof (flt_mul K _ _ _ E2 H) as M. replace (finv K x * x) with 1 in M by (field; exact Hx). replace (0 * x) with 0 in M by ring.
      pose proof flt_0_1. pose proof (flt_asym _ _ M). congruence.
    - assert (finv K x = 0) as Z by (apply flt_total; assumption). apply one_neq0. replace 1 with (finv K x * x) by (field; exact Hx). rewrite Z. ring.
  Qed.
  Lemma fle_div x y z : fle x y -> flt K 0 z = true -> fle (fdiv K x z) (fdiv K y z).
  Proof.
    intros H1 H2. assert (Hz : z <> 0) by (intros ->; rewrite flt_irrefl in H2; discriminate).
    replace (fdiv K x z) with (finv K z * x) by (field; exact Hz). replace (fdiv K y z) with (finv K z * y) by (field; exact Hz).
    apply fle_mul; [exact H1|]. apply flt_le. apply flt_inv. exact H2.
  Qed.
End Order.
Arguments fle {K} x y.
