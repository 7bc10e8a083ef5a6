(** The regular-spaced kernels compute the same pair sums as the irregular ones
    do for the times 0, 1, ..., L-1. *)
From Verif Require Import Base Kernels PairSpec KernelProofs.
From Coq Require Import ZifyBool ZifyNat.
Ltac Zify.zify_post_hook ::= Z.div_mod_to_equations.
Set Implicit Arguments.

(* ------------------------------------------------------------------ *)
(** * Sums over ranges of indices *)

Section RangeSums.
  Variable M : CMon.

  Lemma Sum_delta a n (z : Z) (f : nat -> M) :
    Sum M (seq a n) (fun j => if (Z.of_nat j =? z)%Z then f j else m0 M) =
    if ((Z.of_nat a <=? z) && (z <? Z.of_nat (a + n)))%Z%bool then f (Z.to_nat z) else m0 M.
  Proof.
    revert a; induction n as [|n IH]; intros a; cbn [seq].
    - rewrite Sum_nil. destruct (_ && _)%bool eqn:E; [lia|reflexivity].
    - rewrite Sum_cons, IH.
      destruct (Z.eqb_spec (Z.of_nat a) z) as [E1|E1].
      + replace (((Z.of_nat (S a) <=? z) && (z <? Z.of_nat (S a + n)))%Z%bool) with false by lia.
        replace (((Z.of_nat a <=? z) && (z <? Z.of_nat (a + S n)))%Z%bool) with true by lia.
        rewrite madd_0_r. f_equal; lia.
      + rewrite madd_0_l.
        replace (((Z.of_nat (S a) <=? z) && (z <? Z.of_nat (S a + n)))%Z%bool)
          with (((Z.of_nat a <=? z) && (z <? Z.of_nat (a + S n)))%Z%bool) by lia.
        reflexivity.
  Qed.

  (** Only the first [n - m] indices satisfy i + m < n. *)
  Lemma Sum_seq_cut n m (f : nat -> M) :
    Sum M (seq 0 n) (fun i => if (i + m <? n)%nat then f i else m0 M) = Sum M (seq 0 (n - m)) f.
  Proof.
    destruct (Nat.le_gt_cases m n) as [H|H].
    - replace n with ((n - m) + m)%nat at 1 by lia.
      rewrite seq_app, Sum_app.
      rewrite (Sum_ext M (seq 0 (n - m)) _ f).
      2:{ intros i Hi; apply in_seq in Hi. replace (i + m <? n)%nat with true by lia. reflexivity. }
      rewrite (Sum_zero M (seq (0 + (n - m)) m)); [apply madd_0_r|].
      intros i Hi; apply in_seq in Hi. replace (i + m <? n)%nat with false by lia. reflexivity.
    - replace (n - m)%nat with 0%nat by lia. rewrite Sum_nil. apply Sum_zero.
      intros i Hi; apply in_seq in Hi. replace (i + m <? n)%nat with false by lia. reflexivity.
  Qed.

  Lemma Sum_seq_shift a n (f : nat -> M) :
    Sum M (seq a n) f = Sum M (seq 0 n) (fun i => f (i + a)%nat).
  Proof.
    revert a f; induction n as [|n IH]; intros a f; [reflexivity|].
    cbn [seq]. rewrite !Sum_cons, (IH (S a)), (IH 1%nat). f_equal.
    apply Sum_ext; intros i _; f_equal; lia.
  Qed.

  (** Only the last [n - m] indices satisfy m <= i. *)
  Lemma Sum_seq_cut_low n m (f : nat -> M) :
    Sum M (seq 0 n) (fun i => if (m <=? i)%nat then f i else m0 M) =
    Sum M (seq 0 (n - m)) (fun i => f (i + m)%nat).
  Proof.
    destruct (Nat.le_gt_cases m n) as [H|H].
    - replace n with (m + (n - m))%nat at 1 by lia.
      rewrite seq_app, Sum_app.
      rewrite (Sum_zero M (seq 0 m)).
      2:{ intros i Hi; apply in_seq in Hi. replace (m <=? i)%nat with false by lia. reflexivity. }
      rewrite madd_0_l. simpl Nat.add. rewrite (Sum_seq_shift m).
      apply Sum_ext. intros i _. replace (m <=? i + m)%nat with true by lia. reflexivity.
    - replace (n - m)%nat with 0%nat by lia. rewrite Sum_nil. apply Sum_zero.
      intros i Hi; apply in_seq in Hi. replace (m <=? i)%nat with false by lia. reflexivity.
  Qed.

  Lemma Sum_nth A (l : list A) d (f : A -> M) :
    Sum M l f = Sum M (seq 0 (length l)) (fun i => f (nth i l d)).
  Proof.
    induction l as [|x l IH]; [reflexivity|].
    cbn [length seq]. rewrite !Sum_cons, IH, (@Sum_seq_shift 1). f_equal.
    apply Sum_ext. intros i _. replace (i + 1)%nat with (S i) by lia. reflexivity.
  Qed.
End RangeSums.

Lemma regular_map A (f : list A) d :
  regular f = map (fun i => (nth i f d, Z.of_nat i)) (seq 0 (length f)).
Proof.
  apply list_nth_ext with (d := (d, 0%Z)).
  - unfold regular. rewrite combine_length, arange_length, map_length, seq_length. lia.
  - intros k Hk. unfold regular in *. rewrite combine_length, arange_length, Nat.min_id in Hk.
    rewrite nth_sample by (rewrite arange_length; reflexivity).
    rewrite nth_arange by exact Hk.
    rewrite nth_map_seq by exact Hk. reflexivity.
Qed.

(** Pairs of regular data at a signed delay. *)
Lemma regular_pairs_pos (M : CMon) A B (x : list A) (y : list B) dx dy (m : nat)
      (g : sample A * sample B -> M) :
  length x = length y ->
  Sum M (pairs_signed (Z.of_nat m) (regular x) (regular y)) g =
  Sum M (seq 0 (length x - m)) (fun i =>
    g ((nth i x dx, Z.of_nat i), (nth (i + m) y dy, Z.of_nat (i + m)))).
Proof.
  intros HL. unfold pairs_signed. rewrite Sum_filter, Sum_list_prod.
  rewrite (regular_map x dx), Sum_map, (regular_map y dy), <- HL.
  rewrite <- Sum_seq_cut.
  apply Sum_ext. intros i Hi. apply in_seq in Hi. rewrite Sum_map.
  transitivity (Sum M (seq 0 (length x)) (fun j =>
    if (Z.of_nat j =? Z.of_nat (i + m))%Z
    then g (nth i x dx, Z.of_nat i, (nth j y dy, Z.of_nat j)) else m0 M)).
  { apply Sum_ext. intros j _. unfold delay; simpl.
    replace (Z.of_nat j - Z.of_nat i =? Z.of_nat m)%Z with (Z.of_nat j =? Z.of_nat (i + m))%Z by lia.
    reflexivity. }
  rewrite (Sum_delta M 0 (length x) (Z.of_nat (i + m))
     (fun j => g (nth i x dx, Z.of_nat i, (nth j y dy, Z.of_nat j)))).
  replace ((Z.of_nat 0 <=? Z.of_nat (i + m)) && (Z.of_nat (i + m) <? Z.of_nat (0 + length x)))%Z%bool
    with (i + m <? length x)%nat by lia.
  rewrite Nat2Z.id. reflexivity.
Qed.

Lemma regular_pairs_neg (M : CMon) A B (x : list A) (y : list B) dx dy (m : nat)
      (g : sample A * sample B -> M) :
  length x = length y ->
  Sum M (pairs_signed (- Z.of_nat m) (regular x) (regular y)) g =
  Sum M (seq 0 (length x - m)) (fun i =>
    g ((nth (i + m) x dx, Z.of_nat (i + m)), (nth i y dy, Z.of_nat i))).
Proof.
  intros HL. unfold pairs_signed. rewrite Sum_filter, Sum_list_prod.
  rewrite (regular_map x dx), Sum_map, (regular_map y dy), <- HL.
  transitivity (Sum M (seq 0 (length x)) (fun i => if (m <=? i)%nat
     then g (nth i x dx, Z.of_nat i, (nth (i - m) y dy, Z.of_nat (i - m))) else m0 M)).
  2:{ rewrite Sum_seq_cut_low. apply Sum_ext. intros i _.
      replace (i + m - m)%nat with i by lia. reflexivity. }
  apply Sum_ext. intros i Hi. apply in_seq in Hi. rewrite Sum_map.
  transitivity (Sum M (seq 0 (length x)) (fun j =>
    if (Z.of_nat j =? Z.of_nat i - Z.of_nat m)%Z
    then g (nth i x dx, Z.of_nat i, (nth j y dy, Z.of_nat j)) else m0 M)).
  { apply Sum_ext. intros j _. unfold delay; simpl.
    replace (Z.of_nat j - Z.of_nat i =? - Z.of_nat m)%Z with (Z.of_nat j =? Z.of_nat i - Z.of_nat m)%Z by lia.
    reflexivity. }
  rewrite (Sum_delta M 0 (length x) (Z.of_nat i - Z.of_nat m)
     (fun j => g (nth i x dx, Z.of_nat i, (nth j y dy, Z.of_nat j)))).
  replace ((Z.of_nat 0 <=? Z.of_nat i - Z.of_nat m) && (Z.of_nat i - Z.of_nat m <? Z.of_nat (0 + length x)))%Z%bool
    with (m <=? i)%nat by lia.
  replace (Z.to_nat (Z.of_nat i - Z.of_nat m)) with (i - m)%nat by lia. reflexivity.
Qed.

(** Splitting an absolute delay into its two signed delays. *)
Lemma pairs_at_signed (M : CMon) A B (d1 : list (sample A)) (d2 : list (sample B)) (k : nat)
      (g : sample A * sample B -> M) :
  (0 < k)%nat ->
  Sum M (pairs_at k d1 d2) g =
  madd M (Sum M (pairs_signed (Z.of_nat k) d1 d2) g) (Sum M (pairs_signed (- Z.of_nat k) d1 d2) g).
Proof.
  intros Hk. unfold pairs_at, pairs_signed. rewrite !Sum_filter, <- Sum_madd.
  apply Sum_ext. intros p _.
  destruct (Z.eqb_spec (delay p) (Z.of_nat k)), (Z.eqb_spec (delay p) (- Z.of_nat k)).
  - lia.
  - replace (Z.abs (delay p) =? Z.of_nat k)%Z with true by lia. rewrite madd_0_r; reflexivity.
  - replace (Z.abs (delay p) =? Z.of_nat k)%Z with true by lia. rewrite madd_0_l; reflexivity.
  - replace (Z.abs (delay p) =? Z.of_nat k)%Z with false by lia. rewrite madd_0_l; reflexivity.
Qed.

Lemma pairs_at_0 A B (d1 : list (sample A)) (d2 : list (sample B)) :
  pairs_at 0 d1 d2 = pairs_signed 0 d1 d2.
Proof.
  unfold pairs_at, pairs_signed. apply filter_ext. intros p.
  destruct (Z.eqb_spec (delay p) 0); lia.
Qed.

(** Unordered pairs of indexed data. *)
Lemma Sum_upairs_map (M : CMon) A (h : nat -> A) a n (g : A * A -> M) :
  Sum M (upairs (map h (seq a n))) g =
  Sum M (seq a n) (fun i => Sum M (seq i (a + n - i)) (fun j => g (h i, h j))).
Proof.
  revert a; induction n as [|n IH]; intros a; [reflexivity|].
  cbn [seq map upairs]. rewrite Sum_app.
  change ((h a, h a) :: map (pair (h a)) (map h (seq (S a) n)))
    with (map (pair (h a)) (map h (seq a (S n)))).
  rewrite (@Sum_cons M nat). rewrite !Sum_map. f_equal.
  - replace (a + S n - a)%nat with (S n) by lia. reflexivity.
  - rewrite IH. apply Sum_ext. intros i Hi. apply in_seq in Hi.
    replace (S a + n - i)%nat with (a + S n - i)%nat by lia. reflexivity.
Qed.

Lemma regular_upairs (M : CMon) A (x : list A) dx (m : nat) (g : sample A * sample A -> M) :
  Sum M (upairs_at m (regular x)) g =
  Sum M (seq 0 (length x - m)) (fun i =>
    g ((nth i x dx, Z.of_nat i), (nth (i + m) x dx, Z.of_nat (i + m)))).
Proof.
  unfold upairs_at. rewrite Sum_filter, (regular_map x dx), Sum_upairs_map, <- Sum_seq_cut.
  apply Sum_ext. intros i Hi. apply in_seq in Hi.
  transitivity (Sum M (seq i (0 + length x - i)) (fun j =>
    if (Z.of_nat j =? Z.of_nat (i + m))%Z
    then g (nth i x dx, Z.of_nat i, (nth j x dx, Z.of_nat j)) else m0 M)).
  { apply Sum_ext. intros j Hj. apply in_seq in Hj. unfold delay; simpl.
    replace (Z.abs (Z.of_nat j - Z.of_nat i) =? Z.of_nat m)%Z with (Z.of_nat j =? Z.of_nat (i + m))%Z by lia.
    reflexivity. }
  rewrite (Sum_delta M i (0 + length x - i) (Z.of_nat (i + m))
     (fun j => g (nth i x dx, Z.of_nat i, (nth j x dx, Z.of_nat j)))).
  replace ((Z.of_nat i <=? Z.of_nat (i + m)) && (Z.of_nat (i + m) <? Z.of_nat (i + (0 + length x - i))))%Z%bool
    with (i + m <? length x)%nat by lia.
  rewrite Nat2Z.id. reflexivity.
Qed.

(* ------------------------------------------------------------------ *)
(** * Loops that may raise *)

Lemma for_range_res_Ok S (P : nat -> S -> Prop) a b body g s :
  P a s ->
  (forall i s, (a <= i < b)%nat -> P i s -> body i s = Ok (g i s) /\ P (Datatypes.S i) (g i s)) ->
  for_range_res a b body s = Ok (for_range a b g s).
Proof.
  unfold for_range_res, for_range. remember (b - a)%nat as n eqn:E. revert a s E.
  induction n as [|n IH]; intros a s E Ha H; [reflexivity|]. simpl.
  destruct (H a s) as [E1 E2]; [lia|exact Ha|]. rewrite E1.
  apply IH; [lia|exact E2|]. intros i s' Hi. apply H; lia.
Qed.

Lemma for_range_res_first S a b body (s : S) : (a < b)%nat ->
  for_range_res a b body s = let* s' := body a s in for_range_res (Datatypes.S a) b body s'.
Proof.
  intros H. unfold for_range_res. replace (b - a)%nat with (Datatypes.S (b - Datatypes.S a)) by lia. simpl.
  destruct (body a s); [reflexivity|]. simpl.
  induction (seq (Datatypes.S a) (b - Datatypes.S a)) as [|i l IH]; [reflexivity|exact IH].
Qed.

(** An accumulation loop over two arrays read in parallel. *)
Definition zip_body (M : CMon) A (f : A -> A -> M) (xv yv : list A) (j : nat) (acc : M) : res M :=
  match nth_error xv j, nth_error yv j with
  | Some x, Some y => Ok (madd M acc (f x y))
  | _, _ => Raise OutOfBounds
  end.

Lemma Sum_acc (M : CMon) (f : nat -> M) n acc :
  for_range 0 n (fun j acc => madd M acc (f j)) acc = madd M acc (Sum M (seq 0 n) f).
Proof.
  induction n as [|n IH].
  - rewrite for_range_nil by lia. rewrite Sum_nil, madd_0_r. reflexivity.
  - rewrite for_range_last by lia. rewrite IH.
    replace (S n) with (n + 1)%nat by lia.
    rewrite seq_app, Sum_app. simpl. rewrite Sum_cons, Sum_nil, madd_0_r, madd_assoc. reflexivity.
Qed.

Lemma zip_loop (M : CMon) A (f : A -> A -> M) xv yv d acc :
  (length xv <= length yv)%nat ->
  for_range_res 0 (length xv) (zip_body M f xv yv) acc =
  Ok (madd M acc (Sum M (seq 0 (length xv)) (fun j => f (nth j xv d) (nth j yv d)))).
Proof.
  intros HL.
  rewrite (@for_range_res_Ok _ (fun _ _ => True) 0 (length xv) _
             (fun j acc => madd M acc (f (nth j xv d) (nth j yv d)))).
  - rewrite (Sum_acc M (fun j => f (nth j xv d) (nth j yv d))). reflexivity.
  - exact I.
  - intros j s Hj _. split; [|exact I]. unfold zip_body.
    rewrite (nth_error_nth' xv d) by lia. rewrite (nth_error_nth' yv d) by lia. reflexivity.
Qed.

(** Reading past the end of the second array is caught. *)
Lemma zip_loop_oob (M : CMon) A (f : A -> A -> M) xv yv acc :
  (length yv < length xv)%nat ->
  for_range_res 0 (length xv) (zip_body M f xv yv) acc = Raise OutOfBounds.
Proof.
  intros HL.
  enough (H : forall n k acc, length xv = (k + n)%nat -> (k <= length yv)%nat ->
     for_range_res k (k + n) (zip_body M f xv yv) acc = Raise OutOfBounds).
  { rewrite <- (H (length xv) 0%nat acc) by lia. reflexivity. }
  induction n as [|n IH]; intros k a E Hk; [lia|].
  rewrite for_range_res_first by lia. unfold zip_body at 1.
  destruct (nth_error xv k) as [x|] eqn:Ex; [|reflexivity].
  destruct (nth_error yv k) as [y|] eqn:Ey; [|reflexivity].
  assert (k < length yv)%nat by (apply nth_error_Some; congruence).
  simpl. replace (k + S n)%nat with (S k + n)%nat by lia. apply IH; lia.
Qed.

(* ------------------------------------------------------------------ *)
(** * Slices *)

Lemma slice_head A (x : list A) i : (i <= length x)%nat ->
  py_slice x 0 (Z.of_nat (length x) - Z.of_nat i) = firstn (length x - i) x.
Proof.
  intros H. unfold py_slice, py_bound. cbn [Z.ltb]. rewrite Z.ltb_irrefl.
  replace (Z.of_nat (length x) - Z.of_nat i <? 0)%Z with false by lia.
  replace (Z.to_nat (Z.min (Z.max 0 0) (Z.of_nat (length x)))) with 0%nat by lia.
  replace (Z.to_nat (Z.min (Z.max (Z.of_nat (length x) - Z.of_nat i) 0) (Z.of_nat (length x))))
    with (length x - i)%nat by lia.
  rewrite Nat.sub_0_r. reflexivity.
Qed.

Lemma slice_tail A (x : list A) i : (i <= length x)%nat ->
  py_slice_from x (Z.of_nat i) = skipn i x.
Proof.
  intros H. unfold py_slice_from, py_bound.
  replace (Z.of_nat i <? 0)%Z with false by lia. f_equal; lia.
Qed.

Lemma nth_firstn A (x : list A) n j d : (j < n)%nat -> nth j (firstn n x) d = nth j x d.
Proof.
  revert n j; induction x as [|a x IH]; intros [|n] [|j] H; simpl; try lia; try reflexivity.
  apply IH; lia.
Qed.

Lemma nth_skipn A (x : list A) i j d : nth j (skipn i x) d = nth (j + i) x d.
Proof.
  revert i; induction x as [|a x IH]; intros [|i]; simpl.
  - destruct j; reflexivity.
  - destruct j; simpl; [reflexivity|]. destruct (j + S i)%nat; reflexivity.
  - rewrite Nat.add_0_r; reflexivity.
  - rewrite IH. replace (j + S i)%nat with (S (j + i)) by lia. reflexivity.
Qed.

(** Accumulating a head slice of [x] against a tail slice of [y]. *)
Lemma zip_head_tail (M : CMon) A (f : A -> A -> M) (x y : list A) i d acc :
  length x = length y -> (i <= length x)%nat ->
  for_range_res 0 (length (py_slice x 0 (Z.of_nat (length x) - Z.of_nat i)))
    (zip_body M f (py_slice x 0 (Z.of_nat (length x) - Z.of_nat i)) (py_slice_from y (Z.of_nat i))) acc =
  Ok (madd M acc (Sum M (seq 0 (length x - i)) (fun j => f (nth j x d) (nth (j + i) y d)))).
Proof.
  intros HL Hi. rewrite slice_head, slice_tail by lia.
  assert (E1 : length (firstn (length x - i) x) = (length x - i)%nat) by (rewrite firstn_length; lia).
  rewrite (zip_loop M f _ _ d) by (rewrite E1, skipn_length; lia).
  rewrite E1. do 2 f_equal. apply Sum_ext. intros j Hj. apply in_seq in Hj.
  rewrite nth_firstn by lia. rewrite nth_skipn. reflexivity.
Qed.

Lemma zip_tail_head (M : CMon) A (f : A -> A -> M) (x y : list A) i d acc :
  length x = length y -> (i <= length x)%nat ->
  for_range_res 0 (length (py_slice_from x (Z.of_nat i)))
    (zip_body M f (py_slice_from x (Z.of_nat i)) (py_slice y 0 (Z.of_nat (length x) - Z.of_nat i))) acc =
  Ok (madd M acc (Sum M (seq 0 (length x - i)) (fun j => f (nth (j + i) x d) (nth j y d)))).
Proof.
  intros HL Hi. rewrite HL. rewrite slice_head by lia. rewrite slice_tail by lia.
  assert (E1 : length (skipn i x) = (length y - i)%nat) by (rewrite skipn_length; lia).
  rewrite (zip_loop M f _ _ d) by (rewrite E1, firstn_length; lia).
  rewrite E1. do 2 f_equal. apply Sum_ext. intros j Hj. apply in_seq in Hj.
  rewrite nth_firstn by lia. rewrite nth_skipn. reflexivity.
Qed.

(* ------------------------------------------------------------------ *)
(** * Loops that visit every cell once *)

Lemma cells_loop (M : CMon) (v : nat -> M) out :
  for_range 0 (length out) (fun i o => add_at M o i (v i)) out = plus_cells M out v.
Proof.
  apply plus_cells_intro.
  - apply (for_range_inv (fun _ o => length o = length out)); [lia|reflexivity|].
    intros i o _ H; rewrite add_at_length; exact H.
  - intros k Hk.
    enough (H : length (for_range 0 (length out) (fun i o => add_at M o i (v i)) out) = length out /\
                nth k (for_range 0 (length out) (fun i o => add_at M o i (v i)) out) (m0 M) =
                madd M (nth k out (m0 M)) (if (k <? length out)%nat then v k else m0 M)).
    { destruct H as [_ H]. rewrite H. replace (k <? length out)%nat with true by lia. reflexivity. }
    apply (for_range_inv (fun n o => length o = length out /\ nth k o (m0 M) =
                madd M (nth k out (m0 M)) (if (k <? n)%nat then v k else m0 M))); [lia| |].
    + split; [reflexivity|]. replace (k <? 0)%nat with false by lia. rewrite madd_0_r; reflexivity.
    + intros i o Hi [HL E]. split; [rewrite add_at_length; exact HL|].
      rewrite nth_add_at by lia. rewrite E.
      destruct (Nat.eqb_spec k i) as [->|N].
      * replace (i <? i)%nat with false by lia. replace (i <? S i)%nat with true by lia.
        rewrite madd_0_r. reflexivity.
      * rewrite madd_0_r. replace (k <? S i)%nat with (k <? i)%nat by lia. reflexivity.
Qed.

Lemma cells_loop_res (M : CMon) (body : nat -> list M -> res (list M)) (v : nat -> M) out :
  (forall i o, (i < length out)%nat -> length o = length out -> body i o = Ok (add_at M o i (v i))) ->
  for_range_res 0 (length out) body out = Ok (plus_cells M out v).
Proof.
  intros H. rewrite <- cells_loop.
  apply (for_range_res_Ok (fun _ o => length o = length out)); [reflexivity|].
  intros i o Hi HL. split; [apply H; [lia|exact HL]|]. rewrite add_at_length; exact HL.
Qed.

(** The signed layout: cells i and len-i are visited at step i. *)
Lemma signed_cells_loop (M : CMon) (v : nat -> M) (w : nat -> M) out n :
  length out = (2 * n - 1)%nat ->
  for_range 0 n (fun i o =>
    if (0 <? i)%nat then add_at M (add_at M o i (v i)) (length out - i) (w i)
    else add_at M o i (v i)) out =
  plus_cells M out (fun k => if (k <? n)%nat then v k else w (length out - k)%nat).
Proof.
  intros HL.
  set (body := fun i o => if (0 <? i)%nat then _ else _).
  assert (Hlen : forall m, (m <= n)%nat -> length (for_range 0 m body out) = length out).
  { intros m _. apply (for_range_inv (fun _ o => length o = length out)); [lia|reflexivity|].
    intros i o _ H. unfold body. destruct (0 <? i)%nat; rewrite ?add_at_length; exact H. }
  apply plus_cells_intro; [apply Hlen; lia|].
  intros k Hk.
  enough (H : length (for_range 0 n body out) = length out /\
    nth k (for_range 0 n body out) (m0 M) = madd M (nth k out (m0 M))
      (if (k <? n)%nat then (if (k <? n)%nat then v k else m0 M)
       else (if (length out - k <? n)%nat then w (length out - k)%nat else m0 M))).
  { destruct H as [_ H]. rewrite H. destruct (Nat.ltb_spec k n); [reflexivity|].
    replace (length out - k <? n)%nat with true by lia. reflexivity. }
  apply (for_range_inv (fun m o => length o = length out /\ nth k o (m0 M) =
    madd M (nth k out (m0 M))
      (if (k <? n)%nat then (if (k <? m)%nat then v k else m0 M)
       else (if (length out - k <? m)%nat then w (length out - k)%nat else m0 M)))); [lia| |].
  - split; [reflexivity|]. replace (k <? 0)%nat with false by lia.
    replace (length out - k <? 0)%nat with false by lia.
    destruct (k <? n)%nat; rewrite madd_0_r; reflexivity.
  - intros i o Hi [HLo E]. split.
    { unfold body. destruct (0 <? i)%nat; rewrite ?add_at_length; exact HLo. }
    unfold body. destruct (Nat.ltb_spec 0 i).
    + rewrite nth_add_at by (rewrite add_at_length; lia). rewrite nth_add_at by lia. rewrite E.
      destruct (Nat.ltb_spec k n).
      * replace (k =? length out - i)%nat with false by lia. rewrite madd_0_r.
        destruct (Nat.eqb_spec k i) as [->|N].
        -- replace (i <? i)%nat with false by lia. replace (i <? S i)%nat with true by lia.
           rewrite madd_0_r. reflexivity.
        -- rewrite madd_0_r. replace (k <? S i)%nat with (k <? i)%nat by lia. reflexivity.
      * replace (k =? i)%nat with false by lia. rewrite madd_0_r.
        destruct (Nat.eqb_spec k (length out - i)) as [Ek|N].
        -- replace (length out - k)%nat with i by lia.
           replace (i <? i)%nat with false by lia. replace (i <? S i)%nat with true by lia.
           rewrite madd_0_r. reflexivity.
        -- rewrite madd_0_r. replace (length out - k <? S i)%nat with (length out - k <? i)%nat by lia. reflexivity.
    + rewrite nth_add_at by lia. rewrite E. assert (i = 0)%nat as -> by lia.
      destruct (Nat.ltb_spec k n).
      * replace (k <? 0)%nat with false by lia. rewrite madd_0_r.
        replace (k <? 1)%nat with (k =? 0)%nat by lia.
        destruct (Nat.eqb_spec k 0) as [->|]; reflexivity.
      * replace (k =? 0)%nat with false by lia. rewrite madd_0_r.
        replace (length out - k <? 1)%nat with (length out - k <? 0)%nat by lia. reflexivity.
Qed.

Lemma upd_upd A (l : list A) i a b : upd (upd l i a) i b = upd l i b.
Proof. revert i; induction l as [|x l IH]; intros [|i]; simpl; congruence. Qed.

Section Regular.
  Variable K : Fld.
  Add Field Kfield : (flaw K).
  Notation C := (Cx K).

  Lemma _cross_corr_add_zip (xv yv : list C) acc :
    _cross_corr_add xv yv acc = for_range_res 0 (length xv) (zip_body (fmon K) (@redot K) xv yv) acc.
  Proof. reflexivity. Qed.

  Lemma _cross_corr_complex_add_zip (xv yv : list C) acc :
    _cross_corr_complex_add xv yv acc =
    for_range_res 0 (length xv) (zip_body (cmon K) (fun x y => cmul y (conj x)) xv yv) acc.
  Proof. reflexivity. Qed.

  Lemma _cross_diff_add_zip (xv yv : list C) acc :
    _cross_diff_add xv yv acc =
    for_range_res 0 (length xv) (zip_body (fmon K) (fun x y => cnorm2 (csub x y)) xv yv) acc.
  Proof. reflexivity. Qed.

  Theorem _cross_corr_regular_spec (x y : list C) out :
    length x = length y -> (length out <= length x + 1)%nat ->
    _cross_corr_regular x y out = Ok (plus_cells (fmon K) out (corr_spec (regular x) (regular y))).
  Proof.
    intros HL Hn. unfold _cross_corr_regular. apply cells_loop_res.
    intros i o Hi Ho. cbn [mcar fmon cmon] in *. unfold at_cell.
    rewrite _cross_corr_add_zip.
    rewrite (zip_head_tail (fmon K) (@redot K) x y (c0 K)) by lia. cbn [bind].
    unfold corr_spec.
    destruct (Nat.ltb_spec 0 i) as [H0|H0].
    - rewrite _cross_corr_add_zip. rewrite HL.
      rewrite (zip_head_tail (fmon K) (@redot K) y x (c0 K)) by lia. cbn [bind].
      rewrite pairs_at_signed by exact H0.
      rewrite (regular_pairs_pos (fmon K) x y (c0 K) (c0 K)) by exact HL.
      rewrite (regular_pairs_neg (fmon K) x y (c0 K) (c0 K)) by exact HL.
      rewrite nth_upd_same by lia. unfold add_at.
      rewrite upd_upd. f_equal. f_equal. rewrite HL, <- madd_assoc. f_equal. f_equal; apply Sum_ext; intros j _;
        unfold re_prod, redot, cmul, conj, cre, cim; simpl; ring.
    - assert (i = 0)%nat as -> by lia.
      rewrite pairs_at_0. change 0%Z with (Z.of_nat 0).
      rewrite (regular_pairs_pos (fmon K) x y (c0 K) (c0 K)) by exact HL.
      unfold add_at. do 2 f_equal. f_equal. apply Sum_ext; intros j _;
        unfold re_prod, redot, cmul, conj, cre, cim; simpl; ring.
  Qed.

  Theorem _cross_diff_regular_spec (x y : list C) out :
    length x = length y -> (length out <= length x + 1)%nat ->
    _cross_diff_regular x y out = Ok (plus_cells (fmon K) out (diff_spec (regular x) (regular y))).
  Proof.
    intros HL Hn. unfold _cross_diff_regular. apply cells_loop_res.
    intros i o Hi Ho. cbn [mcar fmon cmon] in *. unfold at_cell.
    rewrite _cross_diff_add_zip. rewrite HL at 1.
    rewrite (zip_tail_head (fmon K) _ y x (c0 K)) by lia. cbn [bind].
    unfold diff_spec.
    destruct (Nat.ltb_spec 0 i) as [H0|H0].
    - rewrite _cross_diff_add_zip. rewrite HL.
      rewrite (zip_head_tail (fmon K) _ y x (c0 K)) by lia. cbn [bind].
      rewrite pairs_at_signed by exact H0.
      rewrite (regular_pairs_pos (fmon K) x y (c0 K) (c0 K)) by exact HL.
      rewrite (regular_pairs_neg (fmon K) x y (c0 K) (c0 K)) by exact HL.
      rewrite nth_upd_same by lia. unfold add_at.
      rewrite upd_upd. f_equal. f_equal. rewrite HL, <- madd_assoc. f_equal.
    - assert (i = 0)%nat as -> by lia.
      rewrite pairs_at_0. change 0%Z with (Z.of_nat 0).
      rewrite (regular_pairs_pos (fmon K) x y (c0 K) (c0 K)) by exact HL.
      unfold add_at. rewrite HL. reflexivity.
  Qed.

  Theorem _auto_corr_regular_spec (x : list C) out :
    (length out <= length x + 1)%nat ->
    _auto_corr_regular x out = Ok (plus_cells (fmon K) out (acorr_spec (regular x))).
  Proof.
    intros Hn. unfold _auto_corr_regular. apply cells_loop_res.
    intros i o Hi Ho. cbn [mcar fmon cmon] in *. unfold at_cell. rewrite _cross_corr_add_zip.
    rewrite (zip_tail_head (fmon K) _ x x (c0 K)) by lia. cbn [bind].
    unfold acorr_spec, add_at. rewrite (regular_upairs (fmon K) x (c0 K)).
    do 2 f_equal. f_equal. apply Sum_ext; intros j _.
    unfold re_prod, redot, cmul, conj, cre, cim; simpl; ring.
  Qed.

  Theorem _auto_diff_regular_spec (x : list C) out :
    (length out <= length x + 1)%nat ->
    _auto_diff_regular x out = Ok (plus_cells (fmon K) out (adiff_spec (regular x))).
  Proof.
    intros Hn. unfold _auto_diff_regular. apply cells_loop_res.
    intros i o Hi Ho. cbn [mcar fmon cmon] in *. unfold at_cell. rewrite _cross_diff_add_zip.
    rewrite (zip_tail_head (fmon K) _ x x (c0 K)) by lia. cbn [bind].
    unfold adiff_spec, add_at. rewrite (regular_upairs (fmon K) x (c0 K)). reflexivity.
  Qed.

  Theorem _auto_corr_complex_regular_spec (x : list C) out :
    (length out <= length x + 1)%nat ->
    _auto_corr_complex_regular x out = Ok (plus_cells (cmon K) out (acorr_complex_spec (regular x))).
  Proof.
    intros Hn. unfold _auto_corr_complex_regular. apply (cells_loop_res (cmon K)).
    intros i o Hi Ho. cbn [mcar fmon cmon] in *. unfold at_cell. rewrite _cross_corr_complex_add_zip.
    rewrite (zip_head_tail (cmon K) _ x x (c0 K)) by lia. cbn [bind].
    unfold acorr_complex_spec, add_at. rewrite (regular_upairs (cmon K) x (c0 K)).
    do 2 f_equal. f_equal. apply Sum_ext; intros j _.
    unfold cx_prod_ordered, cx_prod; simpl.
    replace (Z.of_nat j <=? Z.of_nat (j + i))%Z with true by lia.
    unfold cmul, conj, cre, cim; simpl; f_equal; ring.
  Qed.

  Theorem _cross_corr_complex_regular_spec (x y : list C) out n :
    length x = length y -> length out = (2 * n - 1)%nat -> (n <= length x + 1)%nat ->
    _cross_corr_complex_regular x y out =
    Ok (plus_cells (cmon K) out (fun i => corr_complex_spec (regular x) (regular y) (lag_at n i))).
  Proof.
    intros HL Hlen Hn. unfold _cross_corr_complex_regular.
    replace ((length out + 1) / 2)%nat with n by lia.
    destruct (Nat.eq_dec n 0) as [->|Hn0].
    { destruct out; [|simpl in Hlen; lia]. reflexivity. }
    rewrite (@for_range_res_Ok _ (fun _ o => length o = length out) 0 n _
      (fun i o =>
         if (0 <? i)%nat
         then add_at (cmon K) (add_at (cmon K) o i (corr_complex_spec (regular x) (regular y) (Z.of_nat i)))
                (length out - i) (corr_complex_spec (regular x) (regular y) (- Z.of_nat i))
         else add_at (cmon K) o i (corr_complex_spec (regular x) (regular y) (Z.of_nat i)))).
    - f_equal. etransitivity; [exact (@signed_cells_loop (cmon K)
          (fun i => corr_complex_spec (regular x) (regular y) (Z.of_nat i))
          (fun i => corr_complex_spec (regular x) (regular y) (- Z.of_nat i)) out n Hlen)|].
      apply plus_cells_ext. intros k Hk. cbn [mcar cmon] in *. unfold lag_at.
      destruct (Nat.ltb_spec k n); [reflexivity|]. f_equal. lia.
    - reflexivity.
    - intros i o Hi Ho. cbn [mcar fmon cmon] in *. split.
      2:{ destruct (0 <? i)%nat; rewrite ?add_at_length; exact Ho. }
      unfold at_cell. rewrite _cross_corr_complex_add_zip.
      rewrite (zip_head_tail (cmon K) _ x y (c0 K)) by lia. cbn [bind].
      unfold corr_complex_spec.
      rewrite (regular_pairs_pos (cmon K) x y (c0 K) (c0 K)) by exact HL.
      rewrite (regular_pairs_neg (cmon K) x y (c0 K) (c0 K)) by exact HL.
      assert (E : forall a b : C, cmul a (conj b) = cmul (conj b) a)
        by (intros; unfold cmul, conj, cre, cim; simpl; f_equal; ring).
      rewrite (Sum_ext (cmon K) (seq 0 (length x - i))
                 (fun j => cmul (nth (j + i) y (c0 K)) (conj (nth j x (c0 K))))
                 (fun j => cmul (conj (nth j x (c0 K))) (nth (j + i) y (c0 K))))
        by (intros; apply E).
      destruct (Nat.ltb_spec 0 i) as [H0|H0].
      + rewrite _cross_corr_complex_add_zip.
        rewrite (zip_tail_head (cmon K) _ x y (c0 K)) by lia. cbn [bind].
        rewrite (Sum_ext (cmon K) (seq 0 (length x - i))
                 (fun j => cmul (nth j y (c0 K)) (conj (nth (j + i) x (c0 K))))
                 (fun j => cmul (conj (nth (j + i) x (c0 K))) (nth j y (c0 K))))
          by (intros; apply E).
        unfold add_at. rewrite !upd_length, !Ho. reflexivity.
      + reflexivity.
  Qed.
End Regular.

(** [n <= L+1] is sharp: with more output cells the compiled code reads outside
    its input (the model reports it). *)
Lemma _cross_corr_regular_oob (K : Fld) (x y : list (Cx K)) out :
  length x = length y -> (2 <= length x)%nat -> (length x + 1 < length out)%nat ->
  _cross_corr_regular x y out = Raise OutOfBounds.
Proof.
  intros HL H2 Hn. unfold _cross_corr_regular.
  set (body := fun i out => _).
  enough (H : forall k o, (k <= length x + 1)%nat -> length o = length out ->
     for_range_res k (length out) body o = Raise OutOfBounds) by (apply H; lia).
  intros k o Hk. remember (length x + 1 - k)%nat as m eqn:E. revert k o Hk E.
  induction m as [|m IH]; intros k o Hk E Ho.
  - assert (k = length x + 1)%nat as -> by lia.
    rewrite for_range_res_first by lia. unfold body at 1, at_cell.
    rewrite _cross_corr_add_zip, (zip_loop_oob (fmon K)); [reflexivity|].
    unfold py_slice, py_slice_from, py_bound. rewrite skipn_length, firstn_length, skipn_length.
    replace (Z.of_nat (length x) - Z.of_nat (length x + 1) <? 0)%Z with true by lia.
    replace (Z.of_nat (length x + 1) <? 0)%Z with false by lia. cbn [Z.ltb]. rewrite Z.ltb_irrefl. lia.
  - rewrite for_range_res_first by lia. unfold body at 1, at_cell.
    rewrite _cross_corr_add_zip, (zip_head_tail (fmon K) _ x y (c0 K)) by lia. cbn [bind].
    destruct (0 <? k)%nat.
    + rewrite _cross_corr_add_zip. rewrite HL, (zip_head_tail (fmon K) _ y x (c0 K)) by lia. cbn [bind].
      apply IH; [lia|lia|]. rewrite !upd_length; exact Ho.
    + cbn [bind]. apply IH; [lia|lia|]. rewrite !upd_length; exact Ho.
Qed.
