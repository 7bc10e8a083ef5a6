(** The real numbers as an ordered field, with the natural logarithm: the theorems of
    Prop_Avg applied to them. *)
From Coq Require Import Reals Lra.
From Verif Require Import Base Ordered FftReals AvgModel AvgProofs Prop_Avg.
Set Implicit Arguments.

Definition rlt (x y : RF) : bool := if Rlt_dec x y then true else false.
Lemma rlt_true (x y : R) : rlt x y = true <-> (x < y)%R.
Proof. unfold rlt. destruct (Rlt_dec x y); split; try discriminate; try contradiction; auto. Qed.
Lemma rlt_false (x y : R) : rlt x y = false <-> (y <= x)%R.
Proof. unfold rlt. destruct (Rlt_dec x y); split; try discriminate; intros; lra || reflexivity. Qed.
Definition RO : OFld.
Proof.
  refine {| ofld := RF; flt := rlt |}; cbn [fcar RF fadd fmul f0].
  - intros x. apply rlt_false. lra.
  - intros x y z. rewrite !rlt_true. lra.
  - intros x y. rewrite !rlt_false. lra.
  - intros x y z. rewrite !rlt_true. lra.
  - intros x y z. rewrite !rlt_true. intros. apply Rmult_lt_compat_r; assumption.
Defined.
Theorem C68_real_logarithm : log_like RO (fun t => ln (IZR t)) IZR.
Proof.
  split; [|split].
  - intros a b H. apply rlt_true. apply ln_increasing; [apply IZR_lt; lia|apply IZR_lt; lia].
  - intros a b H. apply rlt_true. apply IZR_lt. exact H.
  - intros a H. apply rlt_false. assert (P : (0 < IZR a)%R) by (apply IZR_lt; lia).
    destruct (Rle_or_lt (ln (IZR a)) (IZR a)) as [L|L]; [exact L|]. exfalso. apply exp_increasing in L. rewrite exp_ln in L by exact P. pose proof (exp_ineq1 (IZR a)) as E. lra.
Qed.
Print Assumptions C68_real_logarithm.
(** Nodes 0 and 4 with real logarithms: the second node does not get its value. *)
Theorem C68_real_mixed_refuted (y0 y1 o : R) : y0 <> y1 ->
  exists v, _log_interpolate RO (fun t => ln (IZR t)) IZR [4%Z] [0%Z; 4%Z] [y0; y1] [o] = Ok [v] /\ v <> y1.
Proof.
  intros H. apply (@C68_mixed_refuted RO (fun t => ln (IZR t)) IZR 4%Z y0 y1 o C68_real_logarithm); [reflexivity|lia| |exact H].
  apply rlt_true. destruct (Rle_or_lt 4 (ln 4)) as [L|L]; [|exact L]. exfalso.
  assert (E : (exp 4 <= exp (ln 4))%R) by (destruct L as [L|L]; [left; apply exp_increasing; exact L|rewrite <- L; right; reflexivity]).
  rewrite exp_ln in E by lra. pose proof (exp_ineq1 4). lra.
Qed.
Print Assumptions C68_real_mixed_refuted.
