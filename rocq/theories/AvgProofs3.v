(** denoise keeps data that falls falling. *)
From Coq Require Import Reals Lra Lia.
From Verif Require Import Base KernelProofs Ordered FftReals Prop_AvgReals AvgModel AvgProofs AvgProofs2 Prop_SectorReals.
Set Implicit Arguments.
Local Notation at_ l i := (nth i l (f0 RO)).

Definition rising_data (x : list R) : Prop := forall k, S k < @length R x -> (nth k x 0 <= nth (S k) x 0)%R.
Definition falling_data (x : list R) : Prop := forall k, S k < @length R x -> (nth (S k) x 0 <= nth k x 0)%R.

Lemma med_rising (x : list R) : rising_data x -> map (med RO x) (seq 0 (length x)) = x.
Proof.
  intros H. apply (@list_nth_ext _ _ _ 0%R); rewrite map_length, seq_length; [reflexivity|]. intros i Hi. rewrite (nth_map_seq (med RO x)) by exact Hi.
  apply (@med_monotone RO); [|exact Hi]. intros k Hk. apply RO_le. apply H. exact Hk.
Qed.
Lemma smooth_R (x : list R) i : 0 < i -> S i < @length R x -> smooth RO x i = ((nth (i - 1) x 0 + 2 * nth i x 0 + nth (i + 1) x 0) / 4)%R.
Proof.
  intros H1 H2. unfold smooth. rewrite (proj2 (Nat.eqb_neq i 0)) by lia. assert (E : (i =? length x - 1) = false) by (apply Nat.eqb_neq; lia). change (@length (fcar (ofld RO)) x) with (@length R x). rewrite E. rewrite (fnat_R 2 : fnat RO 2 = _), (fnat_R 4 : fnat RO 4 = _). cbn [fadd fmul fdiv RO RF ofld f0 INR]. unfold Rdiv.
  replace (1 + 1)%R with 2%R by lra. replace (2 + 1 + 1)%R with 4%R by lra. reflexivity.
Qed.
Lemma smooth_end (x : list R) i : i = 0 \/ i = @length R x - 1 -> smooth RO x i = nth i x 0%R.
Proof. intros H. unfold smooth. destruct H as [->|H]; [reflexivity|]. change (@length (fcar (ofld RO)) x) with (@length R x). rewrite (proj2 (Nat.eqb_eq i (length x - 1)) H). destruct (i =? 0) eqn:E; [apply Nat.eqb_eq in E; rewrite E|]; reflexivity. Qed.

Lemma one_pass_len (x : list R) : @length R (one_pass RO x) = @length R x.
Proof. exact (@one_pass_length RO x). Qed.
Lemma passes_len n (x : list R) : @length R (passes RO n x) = @length R x.
Proof. exact (@passes_length RO n x). Qed.
Lemma nth_smooth (x : list R) i : i < @length R x -> nth i (map (smooth RO x) (seq 0 (length x))) 0%R = smooth RO x i.
Proof. intros H. exact (@nth_map_seq _ (smooth RO x) (@length R x) i 0%R H). Qed.
Lemma one_pass_rising (x : list R) : rising_data x -> rising_data (one_pass RO x).
Proof.
  intros H k Hk. rewrite one_pass_len in Hk. unfold one_pass. rewrite med_rising by exact H. rewrite !nth_smooth by lia.
  assert (Hs : forall i, S i < length x -> (nth i x 0 <= smooth RO x (S i))%R /\ (smooth RO x i <= nth (S i) x 0)%R).
  { intros i Hi. split.
    - destruct (Nat.eq_dec (S i) (length x - 1)) as [E|E]; [rewrite (@smooth_end x) by lia; apply H; lia|]. rewrite smooth_R by lia. replace (S i - 1) with i by lia. replace (S i + 1) with (S (S i)) by lia.
      pose proof (H i ltac:(lia)). pose proof (H (S i) ltac:(lia)). lra.
    - destruct (Nat.eq_dec i 0) as [->|E]; [rewrite (@smooth_end x) by lia; apply H; lia|]. rewrite smooth_R by lia. replace (i + 1) with (S i) by lia.
      pose proof (H (i - 1) ltac:(lia)). replace (S (i - 1)) with i in * by lia. pose proof (H i ltac:(lia)). lra. }
  destruct (Nat.eq_dec k 0) as [->|E]; [rewrite (@smooth_end x 0) by lia; apply Hs; lia|].
  destruct (Nat.eq_dec (S k) (length x - 1)) as [E'|E']; [rewrite (@smooth_end x (S k)) by lia; apply Hs; lia|].
  rewrite !smooth_R by lia. replace (S k - 1) with k by lia. replace (k + 1) with (S k) by lia. replace (S k + 1) with (S (S k)) by lia.
  pose proof (H (k - 1) ltac:(lia)). replace (S (k - 1)) with k in * by lia. pose proof (H k ltac:(lia)). pose proof (H (S k) ltac:(lia)). lra.
Qed.
Lemma passes_rising n (x : list R) : rising_data x -> rising_data (passes RO n x).
Proof. revert x. induction n as [|n IH]; intros x H; [exact H|]. cbn [passes]. apply IH, one_pass_rising, H. Qed.
Definition opposite (x : list R) : list R := map (fun a => fadd RO (fmul RO (fopp RO (f1 RO)) a) (f0 RO)) x.
Lemma nth_opposite (x : list R) k : k < @length R x -> nth k (opposite x) 0%R = (- nth k x 0)%R.
Proof. intros H. unfold opposite. rewrite (@nth_indep _ _ _ 0%R (fadd RO (fmul RO (fopp RO (f1 RO)) 0%R) (f0 RO))) by (rewrite map_length; exact H). rewrite (map_nth (fun a => fadd RO (fmul RO (fopp RO (f1 RO)) a) (f0 RO))). change (- (1) * nth k x 0 + 0 = - nth k x 0)%R. lra. Qed.
Lemma passes_falling n (x : list R) : falling_data x -> falling_data (passes RO n x).
Proof.
  intros H. assert (R1 : rising_data (opposite x)). { intros k Hk. assert (L : @length R (opposite x) = @length R x) by apply map_length. change (S k < @length R (opposite x)) in Hk. rewrite L in Hk. rewrite !(@nth_opposite x) by lia. pose proof (H k Hk). lra. }
  apply (passes_rising n) in R1. unfold opposite in R1. rewrite passes_affine in R1. fold (opposite (passes RO n x)) in R1.
  intros k Hk. specialize (R1 k). assert (L : length (opposite (passes RO n x)) = length (passes RO n x)) by apply map_length. rewrite L in R1. specialize (R1 Hk).
  rewrite (@nth_opposite (passes RO n x) k) in R1 by exact (Nat.lt_trans _ _ _ (Nat.lt_succ_diag_r k) Hk). rewrite (@nth_opposite (passes RO n x) (S k)) in R1 by exact Hk. lra.
Qed.
(** Data on a straight line stays as it is. *)
Lemma passes_line n (x : list R) a b : (forall k, (k < @length R x)%nat -> nth k x 0 = a + b * INR k)%R -> passes RO n x = x.
Proof.
  revert x a b. assert (Hr : forall (x : list R) a b, (0 <= b)%R -> (forall k, (k < @length R x)%nat -> nth k x 0 = a + b * INR k)%R -> one_pass RO x = x).
  { intros x a b Hb H. unfold one_pass. rewrite med_rising.
    - apply (@list_nth_ext _ _ _ 0%R); rewrite map_length, seq_length; [reflexivity|]. intros i Hi. change (i < @length R x) in Hi. rewrite nth_smooth by exact Hi.
      destruct (Nat.eq_dec i 0) as [->|E]; [apply smooth_end; lia|]. destruct (Nat.eq_dec i (length x - 1)) as [E'|E']; [apply smooth_end; lia|].
      rewrite smooth_R by lia. rewrite !H by lia. rewrite minus_INR, plus_INR by lia. cbn [INR]. field.
    - intros k Hk. rewrite !H by lia. rewrite S_INR. nra. }
  assert (H1 : forall (x : list R) a b, (forall k, (k < @length R x)%nat -> nth k x 0 = a + b * INR k)%R -> one_pass RO x = x).
  { intros x a b H. destruct (Rle_dec 0 b) as [Hb|Hb]; [exact (Hr x a b Hb H)|].
    assert (E : one_pass RO (opposite x) = opposite x). { apply (Hr _ (- a)%R (- b)%R); [lra|]. intros k Hk. assert (L : @length R (opposite x) = @length R x) by apply map_length. change (k < @length R (opposite x)) in Hk. rewrite L in Hk. rewrite nth_opposite by exact Hk. rewrite H by exact Hk. lra. }
    unfold opposite in E at 1. rewrite one_pass_affine in E. fold (opposite (one_pass RO x)) in E.
    apply (@list_nth_ext _ _ _ 0%R); [apply one_pass_len|]. intros k Hk. rewrite one_pass_len in Hk. apply (f_equal (fun l => nth k l 0%R)) in E. rewrite !nth_opposite in E by (rewrite ?one_pass_len; exact Hk). lra. }
  intros x a b H. induction n as [|n IH]; [reflexivity|]. cbn [passes]. rewrite (H1 x a b H). exact IH.
Qed.
