(** The running-sum kernels for regular data compute the sums over pairs. *)
From Verif Require Import Base Kernels PairSpec KernelProofs RegularProofs.
From Coq Require Import ZifyBool ZifyNat.
Ltac Zify.zify_post_hook ::= Z.div_mod_to_equations.
Set Implicit Arguments.

Lemma times_arange n : times (arange n) = regular (repeat tt n).
Proof.
  apply list_nth_ext with (d := (tt, 0%Z)).
  - unfold regular. rewrite times_length, combine_length, !arange_length, repeat_length. lia.
  - rewrite times_length, arange_length. intros k Hk. rewrite nth_times. unfold regular.
    rewrite repeat_length. rewrite nth_sample by (rewrite repeat_length, arange_length; reflexivity).
    destruct (nth k (repeat tt n) tt). reflexivity.
Qed.

Section Sums.
  Variable G : QGrp.

  Lemma asub_add_r (a b : G) : asub G (madd G a b) b = a.
  Proof. unfold asub. rewrite <- madd_assoc, aopp_law, madd_0_r. reflexivity. Qed.

  Lemma asub_add_l (a b : G) : asub G (madd G a b) a = b.
  Proof. rewrite madd_comm. apply asub_add_r. Qed.

  (** Sum of all samples that have a partner [k] steps later / earlier. *)
  Definition head_sum (x : list G) (k : nat) : G :=
    Sum G (seq 0 (length x - k)) (fun i => nth i x (m0 G)).
  Definition tail_sum (x : list G) (k : nat) : G :=
    Sum G (seq 0 (length x - k)) (fun i => nth (i + k) x (m0 G)).

  Lemma total_sum x : total G x = head_sum x 0.
  Proof.
    unfold total, head_sum. rewrite (Sum_acc G (fun j => nth j x (m0 G))), madd_0_l, Nat.sub_0_r.
    reflexivity.
  Qed.

  Lemma tail_sum_0 x : tail_sum x 0 = head_sum x 0.
  Proof. unfold tail_sum, head_sum. apply Sum_ext; intros i _. rewrite Nat.add_0_r. reflexivity. Qed.

  Lemma head_sum_step x k : (1 <= k <= length x)%nat ->
    asub G (head_sum x (k - 1)) (nth (length x - k) x (m0 G)) = head_sum x k.
  Proof.
    intros H. unfold head_sum. replace (length x - (k - 1))%nat with (length x - k + 1)%nat by lia.
    rewrite seq_app, Sum_app. simpl. rewrite Sum_cons, Sum_nil, madd_0_r. apply asub_add_r.
  Qed.

  Lemma tail_sum_step x k : (1 <= k <= length x)%nat ->
    asub G (tail_sum x (k - 1)) (nth (k - 1) x (m0 G)) = tail_sum x k.
  Proof.
    intros H. unfold tail_sum. replace (length x - (k - 1))%nat with (S (length x - k)) by lia.
    cbn [seq]. rewrite Sum_cons. simpl Nat.add. rewrite asub_add_l.
    rewrite (@Sum_seq_shift G 1). apply Sum_ext. intros i _. f_equal; lia.
  Qed.

  Lemma read_in x i : (0 <= i < Z.of_nat (length x))%Z -> read G x i = Ok (nth (Z.to_nat i) x (m0 G)).
  Proof.
    intros H. unfold read, py_index. replace (i <? 0)%Z with false by lia.
    replace ((0 <=? i) && (i <? Z.of_nat (length x)))%Z%bool with true by lia. reflexivity.
  Qed.

  (** sums over pairs in terms of head and tail sums *)
  Lemma sum_signed_pos x k :
    sum_signed_spec G (regular x) (times (arange (length x))) (Z.of_nat k) = head_sum x k.
  Proof.
    unfold sum_signed_spec. rewrite times_arange.
    rewrite (regular_pairs_pos G x _ (m0 G) tt) by (rewrite repeat_length; reflexivity).
    reflexivity.
  Qed.

  Lemma sum_signed_neg x k :
    sum_signed_spec G (regular x) (times (arange (length x))) (- Z.of_nat k) = tail_sum x k.
  Proof.
    unfold sum_signed_spec. rewrite times_arange.
    rewrite (regular_pairs_neg G x _ (m0 G) tt) by (rewrite repeat_length; reflexivity).
    reflexivity.
  Qed.

  Lemma sum_abs x k :
    sum_spec G (regular x) (times (arange (length x))) k =
    if (k =? 0)%nat then head_sum x 0 else madd G (head_sum x k) (tail_sum x k).
  Proof.
    destruct (Nat.eqb_spec k 0) as [->|Hk].
    - rewrite <- sum_signed_pos. unfold sum_spec, sum_signed_spec. rewrite pairs_at_0. reflexivity.
    - rewrite <- sum_signed_pos, <- sum_signed_neg. unfold sum_spec, sum_signed_spec.
      apply pairs_at_signed. lia.
  Qed.

  Lemma asub_asub_add (p q a b : G) :
    asub G (asub G (madd G p q) a) b = madd G (asub G p b) (asub G q a).
  Proof.
    unfold asub. rewrite <- !madd_assoc. f_equal.
    rewrite (madd_comm G (aopp G b) _), <- madd_assoc. reflexivity.
  Qed.

  Theorem _cross_sum_regular_spec x out :
    (length out <= length x + 1)%nat ->
    _cross_sum_regular G x out =
    Ok (plus_cells G out (sum_spec G (regular x) (times (arange (length x))))).
  Proof.
    intros Hn. unfold _cross_sum_regular.
    pose (V := sum_spec G (regular x) (times (arange (length x)))).
    pose (S2 := fun i => madd G (head_sum x i) (tail_sum x i)).
    rewrite (@for_range_res_Ok _
      (fun i st => (0 < i -> fst st = S2 (i - 1)%nat)%nat /\ length (snd st) = length out)
      0 (length out) _ (fun i st => (S2 i, add_at G (snd st) i (V i)))).
    - simpl. f_equal. rewrite <- cells_loop.
      generalize (m0 G) as p. unfold for_range. generalize (seq 0 (length out - 0)) as l. clear Hn.
      intros l; revert out. induction l as [|i l IH]; intros out p; [reflexivity|]. apply IH.
    - split; [lia|reflexivity].
    - intros i [prev o] Hi [Hp Ho]. simpl in Hp, Ho |- *.
      assert (EV : V i = if (i =? 0)%nat then head_sum x 0 else S2 i) by (apply sum_abs).
      destruct (Nat.eqb_spec i 0) as [->|Hi0].
      + split.
        * rewrite total_sum, EV. unfold S2. rewrite tail_sum_0. reflexivity.
        * split; [intros _; reflexivity|]. rewrite add_at_length; exact Ho.
      + rewrite !read_in by lia. cbn [bind].
        replace (Z.to_nat (Z.of_nat i - 1)) with (i - 1)%nat by lia.
        replace (Z.to_nat (Z.of_nat (length x) - Z.of_nat i)) with (length x - i)%nat by lia.
        rewrite Hp by lia. unfold S2 at 1 2. rewrite asub_asub_add.
        rewrite head_sum_step, tail_sum_step by lia.
        split; [rewrite EV; reflexivity|].
        split; [intros _; rewrite Nat.sub_0_r; reflexivity|]. rewrite add_at_length; exact Ho.
  Qed.

  (** The common loop of the two signed kernels. *)
  Lemma signed_sum_loop x out n (v w : nat -> G) :
    length out = (2 * n - 1)%nat -> (n <= length x + 1)%nat ->
    forall (body : nat -> G * G * list G -> res (G * G * list G)),
    (forall i p1 p2 o, (i < n)%nat -> length o = length out ->
       (0 < i -> p1 = tail_sum x (i - 1) /\ p2 = head_sum x (i - 1))%nat ->
       body i (p1, p2, o) = Ok (tail_sum x i, head_sum x i,
          if (0 <? i)%nat then add_at G (add_at G o i (v i)) (length out - i) (w i)
          else add_at G o i (v i))) ->
    (let* st := for_range_res 0 n body (m0 G, m0 G, out) in Ok (snd st)) =
    Ok (plus_cells G out (fun k => if (k <? n)%nat then v k else w (length out - k)%nat)).
  Proof.
    intros HL Hn body Hb.
    rewrite (@for_range_res_Ok _
      (fun i st => (0 < i -> fst (fst st) = tail_sum x (i - 1) /\ snd (fst st) = head_sum x (i - 1))%nat /\
                   length (snd st) = length out)
      0 n _ (fun i st => (tail_sum x i, head_sum x i,
          if (0 <? i)%nat then add_at G (add_at G (snd st) i (v i)) (length out - i) (w i)
          else add_at G (snd st) i (v i)))).
    - simpl. f_equal. rewrite <- (@signed_cells_loop G v w out n HL). clear Hb HL Hn.
      generalize (m0 G) at 1 as p. generalize (m0 G) as q. generalize (length out) as len.
      unfold for_range. generalize (seq 0 (n - 0)) as l. clear n.
      intros l len; revert out. induction l as [|i l IH]; intros out p q; [reflexivity|]. apply IH.
    - split; [lia|reflexivity].
    - intros i [[p1 p2] o] Hi [Hp Ho]. simpl in Hp, Ho. split; [apply Hb; [lia|exact Ho|exact Hp]|].
      simpl. split; [intros _; rewrite Nat.sub_0_r; split; reflexivity|].
      destruct (0 <? i)%nat; rewrite ?add_at_length; exact Ho.
  Qed.

  Theorem _cross_sum_complex_regular_spec x out n :
    length out = (2 * n - 1)%nat -> (n <= length x + 1)%nat ->
    _cross_sum_complex_regular G x out =
    Ok (plus_cells G out (fun i =>
      sum_signed_spec G (regular x) (times (arange (length x))) (lag_at n i))).
  Proof.
    intros HL Hn. unfold _cross_sum_complex_regular.
    destruct (Nat.eq_dec n 0) as [->|Hn0].
    { destruct out; [|simpl in HL; lia]. reflexivity. }
    replace ((length out + 1) / 2)%nat with n by lia.
    rewrite (@signed_sum_loop x out n (head_sum x) (tail_sum x) HL Hn).
    - f_equal. apply plus_cells_ext. intros k Hk. unfold lag_at. destruct (Nat.ltb_spec k n).
      + symmetry; apply sum_signed_pos.
      + rewrite <- sum_signed_neg. f_equal. lia.
    - intros i p1 p2 o Hi Ho Hp. destruct (Nat.eqb_spec i 0) as [->|Hi0].
      + rewrite total_sum, tail_sum_0. reflexivity.
      + rewrite !read_in by lia. cbn [bind].
        replace (Z.to_nat (Z.of_nat i - 1)) with (i - 1)%nat by lia.
        replace (Z.to_nat (Z.of_nat (length x) - Z.of_nat i)) with (length x - i)%nat by lia.
        destruct Hp as [-> ->]; [lia|].
        rewrite head_sum_step, tail_sum_step by lia.
        replace (0 <? i)%nat with true by lia. rewrite add_at_length, Ho. reflexivity.
  Qed.

  Theorem _cross_sum_complex_regular_inverted_spec x out n :
    length out = (2 * n - 1)%nat -> (n <= length x + 1)%nat ->
    _cross_sum_complex_regular_inverted G x out =
    Ok (plus_cells G out (fun i =>
      sum_signed_spec G (regular x) (times (arange (length x))) (- lag_at n i))).
  Proof.
    intros HL Hn. unfold _cross_sum_complex_regular_inverted.
    destruct (Nat.eq_dec n 0) as [->|Hn0].
    { destruct out; [|simpl in HL; lia]. reflexivity. }
    replace ((length out + 1) / 2)%nat with n by lia.
    rewrite (@signed_sum_loop x out n (tail_sum x) (head_sum x) HL Hn).
    - f_equal. apply plus_cells_ext. intros k Hk. unfold lag_at. destruct (Nat.ltb_spec k n).
      + symmetry; apply sum_signed_neg.
      + rewrite <- sum_signed_pos. f_equal. lia.
    - intros i p1 p2 o Hi Ho Hp. destruct (Nat.eqb_spec i 0) as [->|Hi0].
      + rewrite total_sum, tail_sum_0. reflexivity.
      + rewrite !read_in by lia. cbn [bind].
        replace (Z.to_nat (Z.of_nat i - 1)) with (i - 1)%nat by lia.
        replace (Z.to_nat (Z.of_nat (length x) - Z.of_nat i)) with (length x - i)%nat by lia.
        destruct Hp as [-> ->]; [lia|].
        rewrite head_sum_step, tail_sum_step by lia.
        replace (0 <? i)%nat with true by lia. rewrite add_at_length, Ho. reflexivity.
  Qed.
End Sums.
