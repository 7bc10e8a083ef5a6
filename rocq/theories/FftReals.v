(** The real numbers of Coq's standard library as an instance: exp(-2*pi*i/N) is a
    root of unity as required by the theorems about the FFT. *)
From Coq Require Import Reals Lra Lia.
From Verif Require Import Base Kernels PairSpec FftModel FftProofs.
Set Implicit Arguments.
Local Open Scope R_scope.

Lemma R_char0 (n : nat) : Nat.iter (S n) (Rplus 1) 0 <> 0.
Proof.
  assert (H : forall m, Nat.iter m (Rplus 1) 0 = INR m).
  { induction m as [|m IH]; [reflexivity|]. rewrite S_INR. cbn [Nat.iter nat_rect]. unfold Nat.iter in IH. rewrite IH. ring. }
  rewrite H. apply not_0_INR. discriminate.
Qed.

Definition RF : Fld := {|
  fcar := R; f0 := 0; f1 := 1; fadd := Rplus; fmul := Rmult; fsub := Rminus; fopp := Ropp;
  fdiv := Rdiv; finv := Rinv; flaw := Rfield; fchar0 := R_char0 |}.

(** exp(-2*pi*i/N), the number meant by the documentation of the FFT libraries *)
Definition Rroot (N : nat) : Cx RF := (cos (2 * PI / INR N), - sin (2 * PI / INR N)).

Lemma Rroot_pow N m : cpow (Rroot N) m = (cos (INR m * (2 * PI / INR N)), - sin (INR m * (2 * PI / INR N))).
Proof.
  set (a := 2 * PI / INR N). induction m as [|m IH].
  - cbn [cpow]. rewrite Rmult_0_l, cos_0, sin_0, Ropp_0. reflexivity.
  - cbn [cpow]. rewrite IH. unfold Rroot. fold a. unfold cmul, cre, cim; cbn [fst snd RF fadd fmul fsub].
    rewrite S_INR, Rmult_plus_distr_r, Rmult_1_l, cos_plus, sin_plus. f_equal; ring.
Qed.

Lemma cos_lt_1 x : 0 < x < 2 * PI -> cos x <> 1.
Proof.
  intros H E. replace x with (2 * (x / 2)) in E by field. rewrite cos_2a_sin in E.
  assert (0 < sin (x / 2)) by (apply sin_gt_0; lra). nra.
Qed.

Section CxR.
  Add Ring CxRring : (c_ring RF).
  Lemma Cx_integral (z s : Cx RF) : cmul z s = c0 RF -> z <> c0 RF -> s = c0 RF.
  Proof.
    intros H Hz. destruct z as [a b], s as [c d].
    unfold cmul, c0, cre, cim in *; cbn [fst snd RF f0 fadd fmul fsub] in *.
    injection H; intros H2 H1.
    assert (Hn : a * a + b * b <> 0).
    { intros E. apply Hz. f_equal; nra. }
    assert (Ec : (a * a + b * b) * c = 0).
    { replace ((a * a + b * b) * c) with (a * (a * c - b * d) + b * (a * d + b * c)) by ring. rewrite H1, H2. ring. }
    assert (Ed : (a * a + b * b) * d = 0).
    { replace ((a * a + b * b) * d) with (a * (a * d + b * c) - b * (a * c - b * d)) by ring. rewrite H1, H2. ring. }
    apply Rmult_integral in Ec, Ed. f_equal; tauto.
  Qed.

  Lemma geometric (z : Cx RF) n :
    cmul (csub z (c1 RF)) (Sum (cmon RF) (seq 0 n) (cpow z)) = csub (cpow z n) (c1 RF).
  Proof.
    induction n as [|n IH].
    - cbn [seq cpow]. rewrite Sum_nil. cbn [m0 cmon]. ring.
    - replace (seq 0 (S n)) with (seq 0 n ++ [n])%list by (rewrite seq_S; reflexivity).
      rewrite Sum_app, Sum_cons, Sum_nil, madd_0_r. cbn [madd cmon].
      transitivity (cadd (cmul (csub z (c1 RF)) (Sum (cmon RF) (seq 0 n) (cpow z))) (cmul (csub z (c1 RF)) (cpow z n))).
      + ring.
      + rewrite IH. cbn [cpow]. ring.
  Qed.
End CxR.

Theorem Rroot_is_root N : (0 < N)%nat -> is_root N (Rroot N).
Proof.
  intros HN. assert (HI : 0 < INR N) by (apply lt_0_INR; exact HN).
  assert (PN : cpow (Rroot N) N = c1 RF).
  { rewrite Rroot_pow. replace (INR N * (2 * PI / INR N)) with (2 * PI) by (field; lra).
    rewrite cos_2PI, sin_2PI, Ropp_0. reflexivity. }
  split; [|split; [exact PN|]].
  - unfold Rroot. set (a := 2 * PI / INR N).
    unfold cmul, conj, c1, cre, cim; cbn [fst snd RF fadd fmul fsub fopp f1 f0].
    pose proof (sin2_cos2 a) as H. unfold Rsqr in H. f_equal; [lra|ring].
  - intros m Hm. set (z := cpow (Rroot N) m).
    assert (E : Sum (cmon RF) (seq 0 N) (fun j => cpow (Rroot N) (j * m)) = Sum (cmon RF) (seq 0 N) (cpow z)).
    { apply Sum_ext. intros j _. unfold z. rewrite <- cpow_mul. f_equal. lia. }
    rewrite E. apply Cx_integral with (z := csub z (c1 RF)).
    + rewrite geometric. unfold z. rewrite <- cpow_mul, (Nat.mul_comm m N), cpow_mul, PN, cpow_1.
      unfold csub, c1, c0, cre, cim; cbn [fst snd RF fsub f0 f1]. f_equal; ring.
    + intros H. unfold z in H. rewrite Rroot_pow in H.
      unfold csub, c1, c0, cre, cim in H; cbn [fst snd RF fsub f0 f1] in H. injection H; intros _ H1.
      apply (@cos_lt_1 (INR m * (2 * PI / INR N))); [|lra].
      assert (0 < INR m) by (apply lt_0_INR; lia). assert (INR m < INR N) by (apply lt_INR; lia).
      pose proof PI_RGT_0.
      replace (INR m * (2 * PI / INR N)) with (2 * PI * (INR m / INR N)) by (field; lra).
      assert (0 < INR m / INR N) by (apply Rdiv_lt_0_compat; lra).
      assert (INR m / INR N < 1).
      { apply Rmult_lt_reg_r with (INR N); [lra|]. unfold Rdiv. rewrite Rmult_assoc, Rinv_l by lra. lra. }
      split; nra.
Qed.
