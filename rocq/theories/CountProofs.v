(** Proofs about effective counts (CountModel.v). *)
From Coq Require Import ZifyBool ZifyNat Permutation.
From Verif Require Import Base Ordered KernelProofs RegularProofs CoreProofs3 MultiModel LevelModel LevelProofs CountModel.
Set Implicit Arguments.
Ltac Zify.zify_post_hook ::= Z.div_mod_to_equations.

Lemma seq_rev k : Permutation (map (fun i => k - i) (seq 0 (S k))) (seq 0 (S k)).
Proof.
  replace (map (fun i => k - i) (seq 0 (S k))) with (rev (seq 0 (S k))); [symmetry; apply Permutation_rev|].
  apply list_nth_ext with (d := 0); [rewrite rev_length, map_length; reflexivity|]. intros i Hi. rewrite rev_length, seq_length in Hi.
  rewrite rev_nth by (rewrite seq_length; exact Hi). rewrite nth_map_seq by exact Hi. rewrite seq_length, seq_nth by lia. lia.
Qed.
Lemma Sum_reverse (M : CMon) k (f : nat -> M) : Sum M (seq 0 (S k)) (fun i => f (k - i)) = Sum M (seq 0 (S k)) f.
Proof. rewrite <- (Sum_map M (fun i => k - i)). apply Sum_Permutation, seq_rev. Qed.
Lemma Sum_beyond (M : CMon) n m (f : nat -> M) : n <= m -> (forall i, n <= i < m -> f i = m0 M) -> Sum M (seq 0 m) f = Sum M (seq 0 n) f.
Proof.
  intros H Z. replace m with (n + (m - n)) by lia. rewrite seq_app, Sum_app, (@Sum_zero M _ (seq (0 + n) (m - n))).
  - rewrite madd_comm, madd_0_l. reflexivity.
  - intros i Hi. apply in_seq in Hi. apply Z. lia.
Qed.

Section Count.
  Variable K : OFld.
  Add Field KcountF : (flaw K).
  Local Notation at_ l i := (nth i%nat l (f0 K)).
  Local Notation S_ := (Sum (fmon K)).
  Local Ltac kring := match goal with |- @eq _ ?a ?b => change (@eq (fcar K) a b) end; ring.

  Lemma full_convolution_ok (a v : list K) k : full_convolution K a v k = S_ (seq 0 (S k)) (fun i => fmul K (at_ a i) (at_ v (k - i))).
  Proof.
    unfold full_convolution.
    rewrite (@Sum_ext (fmon K) _ (seq 0 (S k)) _ (fun i => if i <=? k then fmul K (at_ a i) (at_ v (k - i)) else f0 K)).
    2:{ intros i Hi. apply in_seq in Hi. replace (i <=? k) with true by lia. reflexivity. }
    destruct (Nat.le_ge_cases (length a) (S k)) as [L|L].
    - symmetry. apply Sum_beyond; [exact L|]. intros i Hi. destruct (i <=? k); [|reflexivity]. rewrite (nth_overflow a) by lia. change (@eq (fcar K) (fmul K (f0 K) (at_ v (k - i))) (f0 K)). ring.
    - apply Sum_beyond; [exact L|]. intros i Hi. replace (i <=? k) with false by lia. reflexivity.
  Qed.
  Lemma full_convolution_comm (a v : list K) k : full_convolution K a v k = full_convolution K v a k.
  Proof.
    rewrite !full_convolution_ok. rewrite <- Sum_reverse. apply Sum_ext. intros i Hi. apply in_seq in Hi. replace (k - (k - i)) with i by lia. kring.
  Qed.

  (** With an odd kernel that is not longer than the data, the convolution is centred. *)
  Lemma convolve_same_ok (f : nat -> K) h (v : list K) : 0 < h -> 2 * h - 1 <= length v ->
    np_convolve_same K (map f (seq 0 (2 * h - 1))) v =
    Ok (map (fun c => S_ (seq 0 (length v)) (fun p => fmul K (at_ v p) (if (c <? p + h) && (p <? c + h) then f (c + h - 1 - p) else f0 K))) (seq 0 (length v))).
  Proof.
    intros Hh HL. unfold np_convolve_same. set (ker := map f (seq 0 (2 * h - 1))).
    assert (LK : length ker = 2 * h - 1) by (unfold ker; rewrite map_length, seq_length; reflexivity).
    assert (G : forall c, full_convolution K v ker (c + (2 * h - 1 - 1) / 2) = S_ (seq 0 (length v)) (fun p => fmul K (at_ v p) (if (c <? p + h) && (p <? c + h) then f (c + h - 1 - p) else f0 K))).
    { intros c. unfold full_convolution. apply Sum_ext. intros p Hp. apply in_seq in Hp. replace ((2 * h - 1 - 1) / 2) with (h - 1) by lia.
      destruct (Nat.leb_spec p (c + (h - 1))) as [L1|L1].
      - replace (p <? c + h) with true by lia. rewrite andb_true_r. destruct (Nat.ltb_spec c (p + h)) as [L2|L2].
        + unfold ker. rewrite nth_map_seq by lia. do 2 f_equal. lia.
        + rewrite (nth_overflow ker) by lia. reflexivity.
      - replace (p <? c + h) with false by lia. rewrite andb_false_r. kring. }
    destruct ker as [|x ker'] eqn:E; [cbn in LK; lia|]. rewrite <- E in *. destruct v as [|y v'] eqn:Ev; [cbn in HL; lia|]. rewrite <- Ev in *.
    clear E Ev. destruct (Nat.ltb_spec (length ker) (length v)) as [L|L].
    - f_equal. apply map_ext. intros c. rewrite LK. apply G.
    - replace (length ker) with (length v) by lia. f_equal. apply map_ext. intros c. rewrite full_convolution_comm. replace (length v) with (2 * h - 1) at 1 by lia. apply G.
  Qed.

  (** The weight of delay p in the triangle of half width h about c. *)
  Definition weight (h c p : nat) : K := fdiv K (fnat K (tri h c p)) (fnat K (h * h)).

  Lemma kernel_weight l c p :
    (if (c <? p + 2 ^ l) && (p <? c + 2 ^ l) then kernel_at K l (c + 2 ^ l - 1 - p) else f0 K) = weight (2 ^ l) c p.
  Proof.
    unfold weight, kernel_at, tri. pose proof (pow2_pos l) as Hh. rewrite fnat_mul. pose proof (@fnat_neq0 K (2 ^ l) ltac:(lia)) as Hc. revert Hh Hc. generalize (2 ^ l). intros h Hh Hc.
    destruct (Nat.ltb_spec c (p + h)) as [L1|L1]; [destruct (Nat.ltb_spec p (c + h)) as [L2|L2]|]; cbn [andb].
    - replace (Nat.min (c + h - 1 - p + 1) (2 * h - 1 - (c + h - 1 - p))) with (Nat.min (h + p - c) (h + c - p)) by lia. field. exact Hc.
    - replace (Nat.min (h + p - c) (h + c - p)) with 0 by lia. change (fnat K 0) with (f0 K). field. exact Hc.
    - replace (Nat.min (h + p - c) (h + c - p)) with 0 by lia. change (fnat K 0) with (f0 K). field. exact Hc.
  Qed.

  Definition mean_count (h c : nat) (count : list K) : K := S_ (seq 0 (length count)) (fun p => fmul K (weight h c p) (at_ count p)).
  Definition square_count (h c : nat) (count : list K) : K := S_ (seq 0 (length count)) (fun p => square K (fmul K (weight h c p) (at_ count p))).

  Lemma norm_ok l (count : list K) : 2 * 2 ^ l - 1 <= length count ->
    np_convolve_same K (triangular_kernel K l) count = Ok (map (fun c => mean_count (2 ^ l) c count) (seq 0 (length count))).
  Proof.
    intros H. rewrite kernel_ok, convolve_same_ok by (apply pow2_pos || exact H). f_equal. apply map_ext. intros c. unfold mean_count. apply Sum_ext. intros p _. rewrite kernel_weight. kring.
  Qed.
  Lemma data_ok l (count : list K) : 2 * 2 ^ l - 1 <= length count ->
    np_convolve_same K (map (square K) (triangular_kernel K l)) (map (square K) count) = Ok (map (fun c => square_count (2 ^ l) c count) (seq 0 (length count))).
  Proof.
    intros H. rewrite kernel_ok, map_map, convolve_same_ok by (apply pow2_pos || (rewrite map_length; exact H)). rewrite map_length. f_equal. apply map_ext. intros c. unfold square_count. apply Sum_ext. intros p Hp. apply in_seq in Hp.
    rewrite <- kernel_weight. rewrite (nth_indep _ (f0 K) (square K (f0 K))) by (rewrite map_length; lia). rewrite map_nth. unfold square. destruct (_ && _)%bool; kring.
  Qed.

  Lemma every_length step (data : list K) : 0 < step -> length (every K step data) = (length data + step - 1) / step.
  Proof. intros. unfold every. rewrite map_length, seq_length. reflexivity. Qed.
  Lemma every_nth step (data : list K) k : 0 < step -> k * step < length data -> at_ (every K step data) k = at_ data (k * step).
  Proof.
    intros H1 H2. unfold every. rewrite nth_map_seq; [reflexivity|]. assert (k * step + step <= length data + step - 1) by lia.
    apply Nat.div_le_lower_bound; lia || nia.
  Qed.
  Lemma every_present step n k : 0 < step -> (k < (n + step - 1) / step <-> k * step < n).
  Proof.
    intros H. split; intros L.
    - assert (S k <= (n + step - 1) / step) by lia. assert (step * S k <= step * ((n + step - 1) / step)) by nia. pose proof (Nat.mul_div_le (n + step - 1) step ltac:(lia)). nia.
    - enough (S k <= (n + step - 1) / step) by lia. apply Nat.div_le_lower_bound; nia.
  Qed.

  Lemma row_of_map (f g : nat -> K) n step size k : 0 < step -> 0 < n -> k < size ->
    nth k (map (fun p => cube_ratio K (snd p) (fst p)) (combine (firstn size (every K step (map f (seq 0 n)))) (firstn size (every K step (map g (seq 0 n))))) ++
           repeat None (size - length (firstn size (every K step (map f (seq 0 n)))))) None =
    if k * step <? n then cube_ratio K (g (k * step)) (f (k * step)) else None.
  Proof.
    intros Hs Hn Hk. set (ef := every K step (map f (seq 0 n))). set (eg := every K step (map g (seq 0 n))).
    assert (Lf : length ef = (n + step - 1) / step) by (unfold ef; rewrite every_length, map_length, seq_length by exact Hs; reflexivity).
    assert (Lg : length eg = (n + step - 1) / step) by (unfold eg; rewrite every_length, map_length, seq_length by exact Hs; reflexivity).
    assert (Lc : length (combine (firstn size ef) (firstn size eg)) = Nat.min size ((n + step - 1) / step)) by (rewrite combine_length, !firstn_length, Lf, Lg; lia).
    destruct (Nat.ltb_spec (k * step) n) as [L|L].
    - apply every_present in L; [|exact Hs]. rewrite app_nth1 by (rewrite map_length, Lc; lia).
      rewrite (nth_indep _ None (cube_ratio K (snd (f0 K, f0 K)) (fst (f0 K, f0 K)))) by (rewrite map_length, Lc; lia).
      rewrite (map_nth (fun p => cube_ratio K (snd p) (fst p))). rewrite combine_nth by (rewrite !firstn_length, Lf, Lg; reflexivity). cbn [fst snd].
      rewrite !nth_firstn by lia. apply every_present in L; [|exact Hs]. unfold ef, eg. rewrite !every_nth by (rewrite ?map_length, ?seq_length; assumption). rewrite !nth_map_seq by exact L. reflexivity.
    - assert (L' : ~ k < (n + step - 1) / step) by (intros X; apply every_present in X; [lia|exact Hs]).
      rewrite app_nth2 by (rewrite map_length, Lc; lia). apply nth_repeat.
  Qed.

  (** *** Rows *)
  Lemma convolve_total (a v : list K) : a <> [] -> v <> [] -> exists y, np_convolve_same K a v = Ok y /\ length y = Nat.max (length a) (length v).
  Proof.
    intros Ha Hv. unfold np_convolve_same. destruct a as [|x a]; [destruct (Ha eq_refl)|]. destruct v as [|y v]; [destruct (Hv eq_refl)|].
    destruct (Nat.ltb_spec (length (x :: a)) (length (y :: v))); eexists; (split; [reflexivity|]); rewrite map_length, seq_length; cbn [length] in *; lia.
  Qed.
  Lemma kernel_length l : length (triangular_kernel K l) = 2 * 2 ^ l - 1.
  Proof. rewrite kernel_ok, map_length, seq_length. reflexivity. Qed.
  Lemma count_row_total (count : list K) size binning l : count <> [] -> exists row, count_row K count size binning l = Ok row /\ length row = size.
  Proof.
    intros Hc. unfold count_row. set (kernel := if (binning =? BINNING_MEAN)%Z then triangular_kernel K l else [f1 K]).
    assert (Hk : kernel <> []). { unfold kernel. destruct (binning =? BINNING_MEAN)%Z; [|discriminate]. intros E. pose proof (kernel_length l) as X. rewrite E in X. pose proof (pow2_pos l). cbn in X. lia. }
    destruct (@convolve_total (map (square K) kernel) (map (square K) count)) as (y & E1 & L1); [destruct kernel; [congruence|discriminate]|destruct count; [congruence|discriminate]|].
    destruct (@convolve_total kernel count Hk Hc) as (z & E2 & L2). rewrite E1, E2. cbn [bind]. eexists. split; [reflexivity|].
    rewrite !map_length in L1. rewrite app_length, map_length, combine_length, repeat_length, !firstn_length, !every_length by apply pow2_pos. rewrite L1, L2. lia.
  Qed.
  Lemma fold_rows A (f : nat -> res A) (g : nat -> A) l acc : (forall i, In i l -> f i = Ok (g i)) ->
    fold_left (fun r i => let* rows := r in let* row := f i in Ok (rows ++ [row])) l (Ok acc) = Ok (acc ++ map g l).
  Proof.
    revert acc. induction l as [|i l IH]; intros acc H; cbn [fold_left map]; [rewrite app_nil_r; reflexivity|].
    cbn [bind]. rewrite (H i) by (left; reflexivity). cbn [bind]. rewrite IH by (intros; apply H; right; assumption). rewrite <- app_assoc. reflexivity.
  Qed.
  Definition the_row (count : list K) size binning l : list (option K) := match count_row K count size binning l with Ok r => r | Raise _ => [] end.
  Lemma multilevel_count_ok (count : list K) level_size binning : (2 <= level_size)%Z -> count <> [] ->
    multilevel_count K count level_size binning =
    Ok (map (the_row count (Z.to_nat level_size) binning) (seq 0 (levels_of (Z.to_nat level_size) (length count) + 1))).
  Proof.
    intros Hs Hc. unfold multilevel_count. replace (level_size <? 2)%Z with false by lia.
    rewrite (@fold_rows _ _ (the_row count (Z.to_nat level_size) binning)); [reflexivity|].
    intros l _. unfold the_row. destruct (count_row_total (Z.to_nat level_size) binning l Hc) as (row & E & _). rewrite E. reflexivity.
  Qed.
  Lemma the_row_length (count : list K) size binning l : count <> [] -> length (the_row count size binning l) = size.
  Proof. intros Hc. unfold the_row. destruct (count_row_total size binning l Hc) as (row & E & HL). rewrite E. exact HL. Qed.
  Lemma the_row_mean (count : list K) size l k : 2 * 2 ^ l - 1 <= length count -> k < size ->
    nth k (the_row count size BINNING_MEAN l) None =
    if k * 2 ^ l <? length count then cube_ratio K (mean_count (2 ^ l) (k * 2 ^ l) count) (square_count (2 ^ l) (k * 2 ^ l) count) else None.
  Proof.
    intros HL Hk. unfold the_row, count_row. cbn [Z.eqb BINNING_MEAN Pos.eqb]. rewrite data_ok, norm_ok by exact HL. cbn [bind].
    pose proof (pow2_pos l) as Hh. rewrite row_of_map by lia. reflexivity.
  Qed.
  Lemma the_row_first (count : list K) size binning l k : binning <> BINNING_MEAN -> count <> [] -> k < size ->
    nth k (the_row count size binning l) None =
    if k * 2 ^ l <? length count then cube_ratio K (at_ count (k * 2 ^ l)) (square K (at_ count (k * 2 ^ l))) else None.
  Proof.
    intros Hb Hc Hk. unfold the_row, count_row. replace (binning =? BINNING_MEAN)%Z with false by lia.
    assert (HN : 0 < length count) by (destruct count; [congruence|cbn; lia]).
    assert (W : forall c p, (if (c <? p + 1) && (p <? c + 1) then f1 K else f0 K) = if c =? p then f1 K else f0 K) by (intros c p; destruct (Nat.eqb_spec c p); [replace ((c <? p + 1) && (p <? c + 1)) with true by lia|replace ((c <? p + 1) && (p <? c + 1)) with false by lia]; reflexivity).
    pose proof (@convolve_same_ok (fun _ => f1 K) 1 count ltac:(lia) ltac:(lia)) as E1. cbn [Nat.mul Nat.add Nat.sub seq map] in E1.
    pose proof (@convolve_same_ok (fun _ => square K (f1 K)) 1 (map (square K) count) ltac:(lia) ltac:(rewrite map_length; lia)) as E2. cbn [Nat.mul Nat.add Nat.sub seq map] in E2.
    cbn [map]. rewrite E1, E2. cbn [bind]. rewrite map_length. pose proof (pow2_pos l) as Hh. rewrite row_of_map by lia.
    destruct (Nat.ltb_spec (k * 2 ^ l) (length count)) as [L|L]; [|reflexivity].
    assert (P : forall (u : nat -> K) x c, c < length count -> S_ (seq 0 (length count)) (fun p => fmul K (u p) (if (c <? p + 1) && (p <? c + 1) then x else f0 K)) = fmul K (u c) x).
    { intros u x c Lc. replace (length count) with (c + (1 + (length count - c - 1))) by lia. rewrite seq_app, Sum_app, seq_app, Sum_app. cbn [seq]. rewrite Sum_cons, Sum_nil.
      rewrite (@Sum_zero (fmon K) _ (seq 0 c)). 2:{ intros p Hp. apply in_seq in Hp. replace ((c <? p + 1) && (p <? c + 1)) with false by lia. cbn [m0 fmon]. kring. }
      rewrite (@Sum_zero (fmon K) _ (seq (0 + c + 1) _)). 2:{ intros p Hp. apply in_seq in Hp. replace ((c <? p + 1) && (p <? c + 1)) with false by lia. cbn [m0 fmon]. kring. }
      replace ((c <? 0 + c + 1) && (0 + c <? c + 1)) with true by lia. cbn [m0 madd fmon mcar Nat.add]. kring. }
    f_equal.
    - rewrite (P (fun p => at_ count p)) by exact L. kring.
    - rewrite (P (fun p => at_ (map (square K) count) p)) by exact L. rewrite (nth_indep _ (f0 K) (square K (f0 K))) by (rewrite map_length; lia). rewrite map_nth. unfold square. kring.
  Qed.
End Count.
