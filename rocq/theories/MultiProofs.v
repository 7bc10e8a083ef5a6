(** Proofs about binning and about the number of levels. *)
From Verif Require Import Base Kernels PairSpec KernelProofs CoreProofs2 MultiModel MultiSpec.
From Coq Require Import ZifyBool ZifyNat.
Ltac Zify.zify_post_hook ::= Z.div_mod_to_equations.
Open Scope nat_scope.
Set Implicit Arguments.

Section Blocks.
  Variable G : QGrp.

  Lemma iter_half_add l (a b : G) : Nat.iter l (ahalf G) (madd G a b) = madd G (Nat.iter l (ahalf G) a) (Nat.iter l (ahalf G) b).
  Proof. induction l as [|l IH]; [reflexivity|]. cbn [Nat.iter nat_rect] in *. unfold Nat.iter in *. cbn. rewrite IH. apply ahalf_add. Qed.

  Lemma block_mean_0 (x : nat -> G) k : block_mean G 0 x k = x k.
  Proof. unfold block_mean. cbn [Nat.pow Nat.iter nat_rect seq]. rewrite Nat.mul_1_r. unfold Sum, lsum. cbn. apply madd_0_r. Qed.
  Lemma block_mean_S l (x : nat -> G) k :
    block_mean G (S l) x k = ahalf G (madd G (block_mean G l x (2 * k)) (block_mean G l x (2 * k + 1))).
  Proof.
    assert (E : seq (k * 2 ^ S l) (2 ^ S l) = seq (2 * k * 2 ^ l) (2 ^ l) ++ seq ((2 * k + 1) * 2 ^ l) (2 ^ l)).
    { replace ((2 * k + 1) * 2 ^ l) with (2 * k * 2 ^ l + 2 ^ l) by ring. rewrite <- seq_app. cbn [Nat.pow]. f_equal; ring. }
    unfold block_mean. rewrite E, Sum_app, <- iter_half_add. reflexivity.
  Qed.
  Lemma block_mean_ext l (x y : nat -> G) k : (forall i, k * 2 ^ l <= i < (k + 1) * 2 ^ l -> x i = y i) ->
    block_mean G l x k = block_mean G l y k.
  Proof. intros H. unfold block_mean. f_equal. apply Sum_ext. intros i Hi. apply in_seq in Hi. apply H. lia. Qed.

  Lemma block_means_length l (f : list G) : length (block_means G l f) = length f / 2 ^ l.
  Proof. unfold block_means. rewrite map_length, seq_length. reflexivity. Qed.
  Lemma nth_block_means l (f : list G) k d : k < length f / 2 ^ l ->
    nth k (block_means G l f) d = block_mean G l (fun i => nth i f (m0 G)) k.
  Proof.
    intros H. unfold block_means.
    rewrite nth_indep with (d' := block_mean G l (fun i => nth i f (m0 G)) 0) by (rewrite map_length, seq_length; exact H).
    rewrite map_nth, seq_nth by exact H. reflexivity.
  Qed.
  Lemma block_means_0 (f : list G) : block_means G 0 f = f.
  Proof.
    apply list_nth_ext with (d := m0 G).
    - rewrite block_means_length. apply Nat.div_1_r.
    - rewrite block_means_length. cbn [Nat.pow]. rewrite Nat.div_1_r. intros k Hk.
      rewrite nth_block_means by (cbn [Nat.pow]; rewrite Nat.div_1_r; exact Hk). apply block_mean_0.
  Qed.

  Lemma strided_length A (d : A) a b (f : list A) : length (strided d a b f) = (b - a + 1) / 2.
  Proof. unfold strided. rewrite map_length, seq_length. reflexivity. Qed.
  Lemma nth_strided A (d e : A) a b (f : list A) k : k < (b - a + 1) / 2 -> nth k (strided d a b f) e = nth (a + 2 * k) f d.
  Proof.
    intros H. unfold strided. rewrite nth_indep with (d' := (fun k => nth (a + 2 * k) f d) 0) by (rewrite map_length, seq_length; exact H).
    rewrite (map_nth (fun k => nth (a + 2 * k) f d)), seq_nth by exact H. reflexivity.
  Qed.

  Lemma mean_data_length (f : list G) : length (mean_data G f) = length f / 2.
  Proof. unfold mean_data. rewrite map_length, combine_length, !strided_length. lia. Qed.
  Lemma nth_mean_data (f : list G) k : k < length f / 2 ->
    nth k (mean_data G f) (m0 G) = ahalf G (madd G (nth (2 * k) f (m0 G)) (nth (2 * k + 1) f (m0 G))).
  Proof.
    intros H. unfold mean_data.
    rewrite nth_indep with (d' := (fun p => _mean G (fst p) (snd p)) (m0 G, m0 G))
      by (rewrite map_length, combine_length, !strided_length; lia).
    rewrite (map_nth (fun p => _mean G (fst p) (snd p))), combine_nth by (rewrite !strided_length; lia).
    cbn [fst snd]. rewrite !nth_strided by lia. unfold _mean. do 3 f_equal. lia.
  Qed.

  Lemma div_pow_S n l : n / 2 ^ l / 2 = n / 2 ^ S l.
  Proof. rewrite Nat.div_div by (try apply Nat.pow_nonzero; lia). f_equal. cbn [Nat.pow]. lia. Qed.

  Lemma mean_data_blocks l (f : list G) : mean_data G (block_means G l f) = block_means G (S l) f.
  Proof.
    apply list_nth_ext with (d := m0 G).
    - rewrite mean_data_length, !block_means_length. apply div_pow_S.
    - rewrite mean_data_length, block_means_length. intros k Hk.
      assert (Hk' : k < length f / 2 ^ S l) by (rewrite <- div_pow_S; exact Hk).
      rewrite nth_mean_data by (rewrite block_means_length; exact Hk).
      rewrite !nth_block_means by lia. symmetry. apply block_mean_S.
  Qed.

  Lemma block_firsts_length l (f : list G) : length (block_firsts G l f) = (length f + 2 ^ l - 1) / 2 ^ l.
  Proof. unfold block_firsts. rewrite map_length, seq_length. reflexivity. Qed.
  Lemma nth_block_firsts l (f : list G) k d : k < (length f + 2 ^ l - 1) / 2 ^ l ->
    nth k (block_firsts G l f) d = nth (k * 2 ^ l) f (m0 G).
  Proof.
    intros H. unfold block_firsts. rewrite nth_indep with (d' := (fun k => nth (k * 2 ^ l) f (m0 G)) 0) by (rewrite map_length, seq_length; exact H).
    rewrite (map_nth (fun k => nth (k * 2 ^ l) f (m0 G))), seq_nth by exact H. reflexivity.
  Qed.
  Lemma block_firsts_0 (f : list G) : block_firsts G 0 f = f.
  Proof.
    apply list_nth_ext with (d := m0 G); rewrite block_firsts_length; cbn [Nat.pow];
      replace ((length f + 1 - 1) / 1) with (length f) by lia; [reflexivity|].
    intros k Hk. rewrite nth_block_firsts by (cbn [Nat.pow]; lia). f_equal. cbn [Nat.pow]. ring.
  Qed.
  Lemma ceil_pow_S n l : ((n + 2 ^ l - 1) / 2 ^ l + 1) / 2 = (n + 2 ^ S l - 1) / 2 ^ S l.
  Proof.
    assert (P : 0 < 2 ^ l) by (apply Nat.neq_0_lt_0, Nat.pow_nonzero; lia).
    replace ((n + 2 ^ l - 1) / 2 ^ l + 1) with ((n + 2 ^ l - 1 + 1 * 2 ^ l) / 2 ^ l) by (apply Nat.div_add; lia).
    rewrite div_pow_S. f_equal. cbn [Nat.pow]. lia.
  Qed.
  Lemma slice_data_firsts l (f : list G) : slice_data G (block_firsts G l f) = block_firsts G (S l) f.
  Proof.
    apply list_nth_ext with (d := m0 G); unfold slice_data; rewrite strided_length, !block_firsts_length, Nat.sub_0_r.
    - apply ceil_pow_S.
    - intros k Hk.
      rewrite nth_strided by (rewrite Nat.sub_0_r; exact Hk).
      rewrite nth_block_firsts by lia.
      rewrite nth_block_firsts by (rewrite <- ceil_pow_S; exact Hk). f_equal. cbn [Nat.pow]. ring.
  Qed.
End Blocks.

(** ** The halved sums are means *)
Section Mean.
  Variable K : Fld.
  Add Field Kmean : (flaw K).
  Lemma fnat_add a b : fnat K (a + b) = fadd K (fnat K a) (fnat K b).
  Proof.
    induction a as [|a IH]; [symmetry; apply fadd_0_l|]. cbn [Nat.add]. rewrite !fnat_S, IH. apply fadd_assoc.
  Qed.
  Lemma iter_fhalf l (a : K) : Nat.iter l (ahalf (fgrp K)) a = fdiv K a (fnat K (2 ^ l)).
  Proof.
    assert (P : forall l, fnat K (2 ^ l) <> f0 K) by (intros; apply fnat_neq0, Nat.pow_nonzero; lia).
    induction l as [|l IH].
    - cbn [Nat.iter nat_rect Nat.pow]. rewrite fnat_S. unfold fnat. cbn [Nat.iter nat_rect].
      change (a = fdiv K a (fadd K (f1 K) (f0 K))). field.
      exact (F_1_neq_0 (flaw K)).
    - cbn [Nat.iter nat_rect]. unfold Nat.iter in *. rewrite IH. cbn [ahalf fgrp]. unfold fhalf, ftwo.
      pose proof (P l) as Pl. pose proof (P (S l)) as PS. assert (E : 2 ^ S l = 2 ^ l + 2 ^ l) by (cbn [Nat.pow]; lia).
      rewrite E, fnat_add in *. pose proof (two_neq0 K) as P2.
      clear IH. generalize dependent (fnat K (2 ^ l)). intros. match goal with |- @eq _ ?a ?b => change (@eq (fcar K) a b) end. field. repeat split; assumption.
  Qed.
  Lemma block_mean_real l (x : nat -> K) k :
    block_mean (fgrp K) l x k = fdiv K (Sum (fmon K) (seq (k * 2 ^ l) (2 ^ l)) x) (fnat K (2 ^ l)).
  Proof. apply iter_fhalf. Qed.
  Lemma iter_chalf l (z : Cx K) : Nat.iter l (ahalf (cgrp K)) z = (Nat.iter l (ahalf (fgrp K)) (cre z), Nat.iter l (ahalf (fgrp K)) (cim z)).
  Proof.
    induction l as [|l IH]; [destruct z; reflexivity|]. unfold Nat.iter in *. cbn [nat_rect]. rewrite IH. reflexivity.
  Qed.
  Lemma cre_Sum A (l : list A) f : cre (Sum (cmon K) l f) = Sum (fmon K) l (fun x => cre (f x)).
  Proof. induction l as [|a l IH]; [reflexivity|]. rewrite !Sum_cons. cbn [madd fmon]. rewrite <- IH. reflexivity. Qed.
  Lemma cim_Sum A (l : list A) f : cim (Sum (cmon K) l f) = Sum (fmon K) l (fun x => cim (f x)).
  Proof. induction l as [|a l IH]; [reflexivity|]. rewrite !Sum_cons. cbn [madd fmon]. rewrite <- IH. reflexivity. Qed.
  Lemma block_mean_complex l (x : nat -> Cx K) k :
    block_mean (cgrp K) l x k = (block_mean (fgrp K) l (fun i => cre (x i)) k, block_mean (fgrp K) l (fun i => cim (x i)) k).
  Proof. unfold block_mean. etransitivity; [apply iter_chalf|]. f_equal; f_equal; [apply cre_Sum|apply cim_Sum]. Qed.
End Mean.

(** ** The number of levels *)
Lemma count_levels_gen fuel len n k : 0 < n -> len < n * 2 ^ (fuel + k) -> (forall j, j < k -> n <= len / 2 ^ j) ->
  forall j, j < count_levels fuel len n k <-> n <= len / 2 ^ j.
Proof.
  intros Hn. revert k. induction fuel as [|fuel IH]; intros k HF HK j; cbn [count_levels].
  - split; [apply HK|]. intros HJ. destruct (Nat.lt_ge_cases j k) as [|Hge]; [assumption|exfalso].
    cbn [Nat.add] in HF. assert (2 ^ k <= 2 ^ j) by (apply Nat.pow_le_mono_r; lia).
    assert (P : 0 < 2 ^ j) by (apply Nat.neq_0_lt_0, Nat.pow_nonzero; lia).
    assert (n * 2 ^ j <= len). { rewrite Nat.mul_comm. etransitivity; [|apply Nat.mul_div_le with (b := 2 ^ j); lia]. apply Nat.mul_le_mono_l; exact HJ. }
    nia.
  - destruct (Nat.leb_spec n (len / 2 ^ k)) as [Hle|Hlt].
    + apply IH; [replace (fuel + S k) with (S fuel + k) by lia; exact HF|].
      intros i Hi. destruct (Nat.eq_dec i k) as [->|]; [exact Hle|apply HK; lia].
    + split; [apply HK|]. intros HJ. destruct (Nat.lt_ge_cases j k) as [|Hge]; [assumption|exfalso].
      assert (2 ^ k <= 2 ^ j) by (apply Nat.pow_le_mono_r; lia).
      assert (len / 2 ^ j <= len / 2 ^ k) by (apply Nat.div_le_compat_l; split; [apply Nat.neq_0_lt_0, Nat.pow_nonzero; lia|assumption]).
      lia.
Qed.
Lemma count_levels_spec len n : 0 < n -> forall j, j < count_levels (S len) len n 0 <-> n <= len / 2 ^ j.
Proof.
  intros Hn. apply count_levels_gen; [exact Hn| |lia].
  rewrite Nat.add_0_r. pose proof (Nat.pow_gt_lin_r 2 (S len)). nia.
Qed.
Lemma determine_lengths_ok len n period : 4 < n <= len ->
  exists nlevel, _determine_lengths len n period None = Ok (period * n, n, nlevel) /\ n <= len / 2 ^ nlevel /\ len / 2 ^ S nlevel < n.
Proof.
  intros [H4 HL]. unfold _determine_lengths. destruct (Nat.leb_spec n 4); [lia|].
  assert (Hn : 0 < n) by lia.
  pose proof (count_levels_spec len Hn) as HC. set (c := count_levels (S len) len n 0) in *.
  assert (0 < c). { apply HC. cbn [Nat.pow]. rewrite Nat.div_1_r. exact HL. }
  destruct (Z.ltb_spec (Z.of_nat c - 1) 0); [lia|].
  exists (c - 1). split; [do 2 f_equal; lia|]. split.
  - apply HC. lia.
  - assert (~ (S (c - 1) < c)) by lia. rewrite HC in H2. lia.
Qed.
