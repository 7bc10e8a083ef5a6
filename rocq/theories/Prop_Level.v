(** C47, C48: multilevel averaging and merged times. *)
From Coq Require Import ZifyBool ZifyNat Sorted.
From Verif Require Import Base Ordered AvgModel Kernels KernelProofs NormModel MultiModel MultiProofs RegularProofs CoreProofs3 AvgProofs AvgProofs2 MultiLevels LevelModel LevelProofs LevelProofs2 Examples.
Set Implicit Arguments.

(** The rows of a multilevel array of [N] samples: [size] values in each row, and just as many
    rows as are needed to reach [N]. *)
Definition enough_levels (W : Type) (size N : nat) (rows : list (list W)) : Prop :=
  (forall row, In row rows -> length row = size) /\ 1 <= length rows /\ N <= size * 2 ^ (length rows - 1) /\ (forall l, S l < length rows -> size * 2 ^ l < N).
Lemma enough_levels_of W size N (rows : list (list W)) : 0 < size -> length rows = S (levels_of size N) -> (forall row, In row rows -> length row = size) -> enough_levels size N rows.
Proof.
  intros Hs HL HR. destruct (levels_of_spec N Hs) as [A B]. unfold enough_levels. rewrite HL. replace (S (levels_of size N) - 1) with (levels_of size N) by lia.
  repeat split; try assumption; [lia|]. intros l Hl. apply B. lia.
Qed.
Lemma rows_levels V size N (D : nat -> list V) : 0 < size -> enough_levels size N (map (fun i => level_row size (D i)) (seq 0 (S (levels_of size N)))).
Proof.
  intros Hs. apply enough_levels_of; [exact Hs|rewrite map_length, seq_length; reflexivity|]. intros row H. apply in_map_iff in H. destruct H as (i & <- & _). apply level_row_length.
Qed.

Lemma ok_inj A (x y : A) : Ok x = Ok y -> x = y.
Proof. intros H. injection H as <-. reflexivity. Qed.

(** BINNING_FIRST: row l holds data[k * 2^l], and NaN where this exceeds the data. *)
Theorem C47_first (K : OFld) junk (data : list K) size r : (2 <= size)%Z ->
  exists rows, multilevel (f0 K) (real_conv K junk) data size BINNING_FIRST r = Ok rows /\ enough_levels (Z.to_nat size) (length data) rows /\
    forall l k, l < length rows -> k < Z.to_nat size -> nth k (nth l rows []) None = if k * 2 ^ l <? length data then Some (nth (k * 2 ^ l) data (f0 K)) else None.
Proof.
  intros Hs. set (D := fun l => every (f0 K) (2 ^ l) data). eexists. split; [apply (@multilevel_ok K (f0 K) (real_conv K junk) data size BINNING_FIRST r D); [reflexivity|exact Hs| |]|].
  - unfold D, every. cbn [Nat.pow]. rewrite Nat.div_1_r. replace (length data + 1 - 1) with (length data) by lia.
    apply list_nth_ext with (d := f0 K); rewrite map_length, seq_length; [reflexivity|]. intros k Hk. rewrite nth_map_seq by exact Hk. f_equal. lia.
  - intros i _. unfold next_level. cbn [BINNING_FIRST BINNING_MEAN Z.eqb]. unfold D. rewrite strided_every by apply pow2_pos. reflexivity.
  - split; [apply rows_levels; lia|]. intros l k Hl Hk. rewrite map_length, seq_length in Hl. rewrite nth_map_seq by exact Hl. rewrite (@level_row_nth K (f0 K)) by exact Hk.
    unfold D, every. rewrite map_length, seq_length. destruct (Nat.ltb_spec (k * 2 ^ l) (length data)) as [C|C].
    + pose proof C as C'. rewrite <- (@div_up_lt (length data) (2 ^ l) k (pow2_pos l)) in C'. replace (k <? _) with true by lia. rewrite nth_map_seq by exact C'. reflexivity.
    + destruct (Nat.ltb_spec k ((length data + 2 ^ l - 1) / 2 ^ l)) as [E|E]; [|reflexivity]. apply div_up_lt in E; [lia|apply pow2_pos].
Qed.
Print Assumptions C47_first.
(** BINNING_CHOOSE: row l holds one of the 2^l samples of block k. *)
Theorem C47_choose (K : OFld) junk (data : list K) size r : (2 <= size)%Z ->
  exists rows, multilevel (f0 K) (real_conv K junk) data size BINNING_CHOOSE r = Ok rows /\ enough_levels (Z.to_nat size) (length data) rows /\
    forall l k, l < length rows -> k < Z.to_nat size ->
      if (k + 1) * 2 ^ l <=? length data then exists j, k * 2 ^ l <= j < (k + 1) * 2 ^ l /\ nth k (nth l rows []) None = Some (nth j data (f0 K)) else nth k (nth l rows []) None = None.
Proof.
  intros Hs. eexists. split; [apply (@multilevel_ok K (f0 K) (real_conv K junk) data size BINNING_CHOOSE r (chosen (f0 K) r data)); [reflexivity|exact Hs|reflexivity|intros; reflexivity]|].
  split; [apply rows_levels; lia|]. intros l k Hl Hk. rewrite map_length, seq_length in Hl. rewrite nth_map_seq by exact Hl. rewrite (@level_row_nth K (f0 K)) by exact Hk.
  destruct (chosen_spec (f0 K) r data l) as [A B]. rewrite A. assert (E : (k <? length data / 2 ^ l) = ((k + 1) * 2 ^ l <=? length data)).
  { apply eq_true_iff_eq. rewrite Nat.ltb_lt, Nat.leb_le. pose proof (pow2_pos l). split; intros H1.
    - etransitivity; [|apply (Nat.mul_div_le (length data) (2 ^ l)); lia]. rewrite Nat.mul_comm. apply Nat.mul_le_mono_l. lia.
    - apply Nat.div_le_lower_bound; lia. }
  rewrite <- E. destruct (Nat.ltb_spec k (length data / 2 ^ l)) as [C|C]; [|reflexivity]. destruct (B k C) as (j & Hj & ->). exists j. split; [exact Hj|reflexivity].
Qed.
Print Assumptions C47_choose.
(** BINNING_MEAN: the first entry of each row is the first sample; a later entry whose whole
    triangle lies inside the data is the convolution with triangular_kernel(l). *)
Theorem C47_mean (K : OFld) junk (data : list K) size r : (2 <= size)%Z ->
  exists rows, multilevel (f0 K) (real_conv K junk) data size BINNING_MEAN r = Ok rows /\ enough_levels (Z.to_nat size) (length data) rows /\
    (forall l k, l < length rows -> k < Z.to_nat size -> (nth k (nth l rows []) None = None <-> length data <= k * 2 ^ l)) /\
    (forall l, l < length rows -> 0 < length data -> nth 0 (nth l rows []) None = Some (nth 0 data (f0 K))) /\
    (forall l k, l < length rows -> 1 <= k < Z.to_nat size -> (k + 1) * 2 ^ l <= length data ->
      nth k (nth l rows []) None =
      Some (Sum (fmon K) (seq 0 (2 * 2 ^ l - 1)) (fun i => fmul K (nth i (triangular_kernel K l) (f0 K)) (nth (k * 2 ^ l + i - (2 ^ l - 1)) data (f0 K))))).
Proof.
  intros Hs. eexists. split; [apply (@multilevel_ok K (f0 K) (real_conv K junk) data size BINNING_MEAN r (averaged K data)); [reflexivity|exact Hs|reflexivity|intros i Hi; apply (@averaged_next K junk (Z.to_nat size)); [lia|exact Hi]]|].
  split; [apply rows_levels; lia|]. rewrite map_length, seq_length.
  assert (E : forall l k, l < S (levels_of (Z.to_nat size) (length data)) -> k < Z.to_nat size ->
    nth k (nth l (map (fun i => level_row (Z.to_nat size) (averaged K data i)) (seq 0 (S (levels_of (Z.to_nat size) (length data))))) []) None = if k <? length (averaged K data l) then Some (nth k (averaged K data l) (f0 K)) else None).
  { intros l k Hl Hk. rewrite nth_map_seq by exact Hl. rewrite (@level_row_nth K (f0 K)) by exact Hk. reflexivity. }
  repeat split.
  - intros H1. rewrite E in H1 by assumption. destruct (Nat.ltb_spec k (length (averaged K data l))) as [C|C]; [discriminate|]. apply Nat.nlt_ge. intros X. apply averaged_lt in X. lia.
  - intros H1. rewrite E by assumption. destruct (Nat.ltb_spec k (length (averaged K data l))) as [C|C]; [apply averaged_lt in C; lia|reflexivity].
  - intros l Hl H0. rewrite E by lia. replace (0 <? _) with true by (symmetry; apply Nat.ltb_lt, averaged_lt; lia). f_equal. apply averaged_first. exact H0.
  - intros l k Hl [Hk1 Hk2] HN. rewrite E by assumption. pose proof (pow2_pos l). replace (k <? _) with true by (symmetry; apply Nat.ltb_lt, averaged_lt; nia). f_equal. apply averaged_kernel; assumption.
Qed.
Print Assumptions C47_mean.
(** The weights *)
Theorem C47_kernel (K : OFld) n : length (triangular_kernel K n) = 2 * 2 ^ n - 1 /\ (forall w, In w (triangular_kernel K n) -> fle (f0 K) w) /\
  rev (triangular_kernel K n) = triangular_kernel K n /\ Sum (fmon K) (triangular_kernel K n) (fun w => w) = f1 K /\
  (forall i, i < 2 ^ n -> fmul K (fmul K (fnat K (2 ^ n)) (fnat K (2 ^ n))) (nth i (triangular_kernel K n) (f0 K)) = fnat K (i + 1)).
Proof.
  repeat split.
  - rewrite kernel_ok, map_length, seq_length. reflexivity.
  - apply kernel_nonneg.
  - apply kernel_symmetric.
  - apply kernel_sum.
  - intros i Hi. rewrite kernel_ok, nth_map_seq by lia. rewrite kernel_at_eq. replace (Nat.min (i + 1) (2 * 2 ^ n - 1 - i)) with (i + 1) by lia. rewrite <- fnat_mul. replace (2 ^ n * 2 ^ n) with (4 ^ n) by (rewrite <- Nat.pow_mul_l; reflexivity).
    pose proof (@fnat_neq0 K (4 ^ n) ltac:(apply Nat.pow_nonzero; lia)) as Hc. revert Hc. generalize (fnat K (4 ^ n)) (fnat K (i + 1)). apply mul_inv_cancel.
Qed.
Print Assumptions C47_kernel.
(** Linear data are reproduced at all positions, also next to the ends; constant data are the case c = 0. *)
Theorem C47_linear (K : OFld) junk (data : list K) size r c d rows : (2 <= size)%Z -> (forall p, p < length data -> nth p data (f0 K) = fadd K (fmul K c (fnat K p)) d) ->
  multilevel (f0 K) (real_conv K junk) data size BINNING_MEAN r = Ok rows -> forall l k, l < length rows -> k < Z.to_nat size ->
  nth k (nth l rows []) None = if k * 2 ^ l <? length data then Some (fadd K (fmul K c (fnat K (k * 2 ^ l))) d) else None.
Proof.
  intros Hs H0 H l k Hl Hk.
  rewrite (@multilevel_ok K (f0 K) (real_conv K junk) data size BINNING_MEAN r (averaged K data)) in H; [|reflexivity|exact Hs|reflexivity|intros i Hi; apply (@averaged_next K junk (Z.to_nat size)); [lia|exact Hi]].
  apply ok_inj in H. subst rows. rewrite map_length, seq_length in Hl. rewrite nth_map_seq by exact Hl. rewrite (@level_row_nth K (f0 K)) by exact Hk.
  destruct (Nat.ltb_spec (k * 2 ^ l) (length data)) as [C|C].
  - replace (k <? _) with true by (symmetry; apply Nat.ltb_lt, averaged_lt; exact C). f_equal. apply averaged_linear; assumption.
  - destruct (Nat.ltb_spec k (length (averaged K data l))) as [E|E]; [apply averaged_lt in E; lia|reflexivity].
Qed.
Print Assumptions C47_linear.
(** All averages stay within the range of the data. *)
Theorem C47_range (K : OFld) junk (data : list K) size r lo hi rows : (2 <= size)%Z -> (forall y, In y data -> fle lo y /\ fle y hi) ->
  multilevel (f0 K) (real_conv K junk) data size BINNING_MEAN r = Ok rows -> forall row y, In row rows -> In (Some y) row -> fle lo y /\ fle y hi.
Proof.
  intros Hs H0 H row y HR HY.
  rewrite (@multilevel_ok K (f0 K) (real_conv K junk) data size BINNING_MEAN r (averaged K data)) in H; [|reflexivity|exact Hs|reflexivity|intros i Hi; apply (@averaged_next K junk (Z.to_nat size)); [lia|exact Hi]].
  apply ok_inj in H. subst rows. apply in_map_iff in HR. destruct HR as (l & EE & _). subst row. unfold level_row in HY. apply in_app_or in HY. destruct HY as [HY|HY]; [|apply repeat_spec in HY; discriminate].
  apply in_map_iff in HY. destruct HY as (y' & E & HY). injection E as ->. apply (In_nth _ _ (f0 K)) in HY. destruct HY as (k & Hk & <-). rewrite firstn_length in Hk. rewrite nth_firstn by lia.
  apply (@averaged_between K data lo hi l); [|lia]. intros p Hp. apply H0. apply nth_In. exact Hp.
Qed.
Print Assumptions C47_range.
(** Complex data: real and imaginary part are treated separately; folding must be decided. *)
Theorem C47_complex (K : OFld) junk (data : list (Cx K)) size binning r : _inspect_binning binning = Ok binning -> (2 <= size)%Z ->
  multilevel_complex K junk data size binning None r = Raise ValueError /\
  exists rows, multilevel_complex K junk data size binning (Some false) r = Ok rows /\
    multilevel (f0 K) (real_conv K junk) (map cre data) size binning r = Ok (map (map (option_map cre)) rows) /\
    multilevel (f0 K) (real_conv K junk) (map cim data) size binning r = Ok (map (map (option_map cim)) rows).
Proof.
  intros Hb Hs. unfold multilevel_complex. rewrite Hb. cbn [bind]. replace (size <? 2)%Z with false by lia. split; [reflexivity|]. cbn [bind].
  destruct (@multilevel_shape (Cx K) (c0 K) (complex_conv K junk) (@complex_conv_ok K junk) data size binning r Hb Hs) as (rows & E & _). exists rows. split; [exact E|].
  unfold multilevel in *. rewrite Hb in *. cbn [bind] in *. replace (size <? 2)%Z with false in * by lia. rewrite !map_length. split.
  - apply (@level_rows_map (Cx K) K cre (c0 K) (complex_conv K junk)); [|intros d d' H; apply complex_conv_parts in H; tauto|exact E]. intros d d' _ H. apply complex_conv_parts in H. tauto.
  - apply (@level_rows_map (Cx K) K cim (c0 K) (complex_conv K junk)); [|intros d d' H; apply complex_conv_parts in H; tauto|exact E]. intros d d' _ H. apply complex_conv_parts in H. tauto.
Qed.
Print Assumptions C47_complex.
Theorem C47_errors (V : Type) (v0 : V) conv data size binning r :
  (_inspect_binning binning <> Ok binning -> multilevel v0 conv data size binning r = Raise ValueError) /\ ((size < 2)%Z -> multilevel v0 conv data size binning r = Raise ValueError).
Proof.
  unfold multilevel, _inspect_binning. destruct (_ || _)%bool; cbn [bind]; (split; [intros H|intros H]); try reflexivity; [destruct (H eq_refl)|]. replace (size <? 2)%Z with true by lia. reflexivity.
Qed.
Print Assumptions C47_errors.
Definition show_row (row : list (option QcO)) := map (fun o => match o with Some x => Some (show x) | None => None end) row.
Definition show_rows (r : res (list (list (option QcO)))) := match r with Ok rows => Ok (map show_row rows) | Raise e => Raise e end.
Example C47_holds :
  show_rows (multilevel (q 0) (real_conv QcO (fun _ => q 9)) [q 0; q 8; q 4; q 4; q 12; q 16; q 1; q 4] 2 BINNING_MEAN (fun _ => true)) =
    Ok [[Some (0, 1); Some (8, 1)]; [Some (0, 1); Some (5, 1)]; [Some (0, 1); Some (65, 8)]]%Z /\
  show_rows (multilevel (q 0) (real_conv QcO (fun _ => q 9)) [q 0; q 8; q 4; q 4; q 12] 4 BINNING_FIRST (fun _ => true)) =
    Ok [[Some (0, 1); Some (8, 1); Some (4, 1); Some (4, 1)]; [Some (0, 1); Some (4, 1); Some (12, 1); None]]%Z /\
  show_rows (multilevel (q 0) (real_conv QcO (fun _ => q 9)) [q 0; q 8; q 4; q 4; q 12] 2 BINNING_CHOOSE (fun l => Nat.even l)) =
    Ok [[Some (0, 1); Some (8, 1)]; [Some (8, 1); Some (4, 1)]; [Some (8, 1); None]]%Z /\
  map show (triangular_kernel QcF 1) = [(1, 4); (1, 2); (1, 4)]%Z.
Proof. vm_compute. repeat split. Qed.

(* ------------------------------------------------------------------ *)
(** * C48: merged times *)
(** merge_multilevel pairs data[l][k] with k * 2^l: the whole first level, the second half of
    the others.  In mode half the first level is treated like the others. *)
Definition merged_full (W : Type) (n : nat) (data : list (list W)) (d : W) : list (nat * W) :=
  map (fun k => (k, nth k (nth 0 data []) d)) (seq 0 n) ++ flat_map (fun l => map (fun k => (k * 2 ^ l, nth k (nth l data []) d)) (seq (n / 2) (n / 2))) (seq 1 (length data - 1)).
Definition merged_half (W : Type) (c n : nat) (data : list (list W)) (d : W) : list (nat * W) :=
  flat_map (fun l => map (fun k => (c * (k * 2 ^ l), nth k (nth l data []) d)) (seq (n / 2) (n / 2))) (seq 0 (length data)).
Theorem C48_full (W : Type) n (data : list (list W)) d : n mod 2 = 0 -> data <> [] -> (forall row, In row data -> length row = n) ->
  exists x y, merge_full n data = Ok (x, y) /\ length x = length y /\ combine x y = merged_full n data d /\ StronglySorted lt x.
Proof.
  intros Hn H0 HR. destruct data as [|y0 rest]; [destruct (H0 eq_refl)|]. rewrite merge_full_ok by exact Hn. eexists _, _. split; [reflexivity|].
  pose proof (HR y0 (or_introl eq_refl)) as HL. pose proof (fun row H => HR row (or_intror H)) as HR'. split; [|split].
  - rewrite !app_length, seq_length, HL. f_equal. apply times_length; assumption.
  - rewrite combine_app' by (rewrite seq_length; symmetry; exact HL). unfold merged_full. f_equal.
    + rewrite <- (map_id (seq 0 n)) at 1. rewrite combine_map_nth with (d := d) by exact HL. apply map_ext. intros k. rewrite Nat.sub_0_r. reflexivity.
    + rewrite combine_levels with (d := d) by assumption. cbn [length]. rewrite Nat.sub_succ, Nat.sub_0_r. rewrite !flat_map_concat_map. f_equal. apply map_ext_in. intros l Hl. apply in_seq in Hl.
      apply map_ext. intros k. rewrite Nat.mul_1_l. destruct l as [|l]; [lia|]. cbn [nth]. rewrite Nat.sub_succ, Nat.sub_0_r. reflexivity.
  - apply full_sorted. exact Hn.
Qed.
Print Assumptions C48_full.
Theorem C48_half (W : Type) n (data : list (list W)) d : n mod 2 = 0 -> (forall row, In row data -> length row = n) ->
  exists x y, merge_half n data = Ok (x, y) /\ length x = length y /\ combine x y = merged_half 1 n data d /\ StronglySorted lt x.
Proof.
  intros Hn HR. rewrite merge_half_ok by exact Hn. eexists _, _. split; [reflexivity|]. split; [apply times_length; assumption|split; [|apply levels_sorted; [exact Hn|lia]]].
  rewrite combine_levels with (d := d) by assumption. unfold merged_half. rewrite !flat_map_concat_map. f_equal. apply map_ext. intros l. apply map_ext. intros k. rewrite !Nat.mul_1_l, Nat.sub_0_r. reflexivity.
Qed.
Print Assumptions C48_half.
(** log_average never fails for size >= 1; its times start with 0 .. 2*size-1 and increase. *)
Theorem C48_log_average (K : OFld) junk (data : list K) size r : (1 <= size)%Z ->
  exists rows x y, multilevel (f0 K) (real_conv K junk) data (size * 2) BINNING_MEAN r = Ok rows /\ log_average (f0 K) (real_conv K junk) data size r = Ok (x, y) /\
    length x = length y /\ combine x y = merged_full (Z.to_nat (size * 2)) rows None /\ StronglySorted lt x /\ firstn (Z.to_nat (size * 2)) x = seq 0 (Z.to_nat (size * 2)).
Proof.
  intros Hs. destruct (@multilevel_shape K (f0 K) (real_conv K junk) (@real_conv_ok K junk) data (size * 2) BINNING_MEAN r eq_refl ltac:(lia)) as (rows & E & HL & HR & _).
  unfold log_average. replace (size <? 1)%Z with false by lia. rewrite E. cbn [bind]. set (n := Z.to_nat (size * 2)) in *. assert (Hn : n mod 2 = 0) by (unfold n; lia).
  assert (H0 : rows <> []) by (intros ->; discriminate). destruct (@C48_full (option K) n rows None Hn H0 HR) as (x & y & E1 & E2 & E3 & E4). exists rows, x, y. repeat split; try assumption.
  destruct rows as [|y0 rest]; [destruct (H0 eq_refl)|]. rewrite merge_full_ok in E1 by exact Hn. apply ok_inj in E1. injection E1 as <- _. rewrite firstn_app, seq_length, Nat.sub_diag. cbn [firstn]. rewrite app_nil_r. apply firstn_all2. rewrite seq_length. lia.
Qed.
Print Assumptions C48_log_average.
(** log_merge: the multilevel version of the fast data in full, followed by the slow data with
    times 2*period*k*2^l.  The times increase if and only if there are no slow levels or the
    last of the fast times, (n-1)*2^L, is smaller than period*n. *)
Theorem C48_log_merge (K : OFld) junk (lin : list K) n (multi : list (list (option K))) period binning r : _inspect_binning binning = Ok binning ->
  2 <= n -> n mod 2 = 0 -> 1 <= period -> length lin = period * n -> (forall row, In row multi -> length row = n) ->
  exists rows x y, multilevel (f0 K) (real_conv K junk) lin (Z.of_nat n) binning r = Ok rows /\ log_merge (f0 K) (real_conv K junk) lin n multi binning r = Ok (x, y) /\
    length x = length y /\ combine x y = merged_full n rows None ++ merged_half (2 * period) n multi None /\
    (forall L, period <= 2 ^ L -> (forall l, l < L -> 2 ^ l < period) -> (StronglySorted lt x <-> multi = [] \/ (n - 1) * 2 ^ L < period * n)).
Proof.
  intros Hb H2 Hn Hp HL HR. destruct (@multilevel_shape K (f0 K) (real_conv K junk) (@real_conv_ok K junk) lin (Z.of_nat n) binning r Hb ltac:(lia)) as (rows & E & HL1 & HR1 & _). rewrite Nat2Z.id in *.
  unfold log_merge. rewrite Hb. cbn [bind]. replace (n =? 0) with false by lia. rewrite HL, Nat.mod_mul, Nat.div_mul by lia. cbn [Nat.eqb negb]. rewrite E. cbn [bind].
  assert (H0 : rows <> []) by (intros ->; discriminate). destruct (@C48_full (option K) n rows None Hn H0 HR1) as (x & y & E1 & E2 & E3 & E4). destruct (@C48_half (option K) n multi None Hn HR) as (x' & y' & F1 & F2 & F3 & F4).
  exists rows, (x ++ map (fun t => 2 * period * t) x'), (y ++ y'). rewrite E1, F1. cbn [bind fst snd]. split; [reflexivity|]. split; [reflexivity|]. split; [rewrite !app_length, map_length; lia|]. split.
  { rewrite combine_app' by exact E2. rewrite E3. f_equal. rewrite combine_map_l, F3. unfold merged_half. rewrite map_flat_map. rewrite !flat_map_concat_map. f_equal. apply map_ext. intros l. rewrite map_map. apply map_ext. intros k. cbn [fst snd]. rewrite Nat.mul_1_l. reflexivity. }
  intros L HL2 HL3. assert (EL : levels_of n (length lin) = L). { apply levels_of_least; [lia|rewrite HL; nia|]. intros l Hl. specialize (HL3 l Hl). rewrite HL. nia. }
  rewrite EL in HL1. destruct rows as [|y0 rest]; [destruct (H0 eq_refl)|]. cbn [length] in HL1. injection HL1 as HL1. rewrite merge_full_ok in E1 by exact Hn. apply ok_inj in E1. injection E1 as <- _. rewrite HL1 in *.
  rewrite merge_half_ok in F1 by exact Hn. apply ok_inj in F1. injection F1 as <- _. rewrite scaled_times. rewrite sorted_app. split.
  - intros (_ & _ & H). destruct multi as [|m0 multi]; [left; reflexivity|]. right. pose proof (@fast_last n L H2 Hn) as A. pose proof (@slow_first n (2 * period) (length multi) H2 Hn) as B.
    specialize (H _ _ A B). replace (period * n) with (n / 2 * (2 * period)); [exact H|]. replace n with (n / 2 * 2) at 2 by lia. lia.
  - intros H. repeat split; [exact E4|apply levels_sorted; [exact Hn|lia]|]. intros t t' Ht Ht'. destruct H as [->|H]; [destruct Ht'|].
    pose proof (@fast_max n L t Hn Ht) as A. pose proof (@slow_min n (2 * period) (length multi) t' Hn ltac:(lia) Ht') as B.
    replace (n / 2 * (2 * period)) with (period * n) in B; [lia|]. replace n with (n / 2 * 2) at 1 by lia. lia.
Qed.
Print Assumptions C48_log_merge.
(** For a period that is a power of two the times always increase. *)
Theorem C48_power_of_two (K : OFld) junk (lin : list K) n (multi : list (list (option K))) p binning r : _inspect_binning binning = Ok binning ->
  2 <= n -> n mod 2 = 0 -> length lin = 2 ^ p * n -> (forall row, In row multi -> length row = n) ->
  exists x y, log_merge (f0 K) (real_conv K junk) lin n multi binning r = Ok (x, y) /\ StronglySorted lt x.
Proof.
  intros Hb H2 Hn HL HR. destruct (@C48_log_merge K junk lin n multi (2 ^ p) binning r Hb H2 Hn (pow2_pos p) HL HR) as (rows & x & y & _ & E & _ & _ & H). exists x, y. split; [exact E|].
  apply (H p); [lia| |right; pose proof (pow2_pos p); nia]. intros l Hl. apply Nat.pow_lt_mono_r; lia.
Qed.
Print Assumptions C48_power_of_two.
(** For other periods (3, and every row length above 3) they do not. *)
Theorem C48_period_3_refuted (K : OFld) junk (lin : list K) n (multi : list (list (option K))) binning r x y : _inspect_binning binning = Ok binning ->
  4 <= n -> n mod 2 = 0 -> length lin = 3 * n -> multi <> [] -> (forall row, In row multi -> length row = n) -> log_merge (f0 K) (real_conv K junk) lin n multi binning r = Ok (x, y) -> ~ StronglySorted lt x.
Proof.
  intros Hb H2 Hn HL H0 HR E S. destruct (@C48_log_merge K junk lin n multi 3 binning r Hb ltac:(lia) Hn ltac:(lia) HL HR) as (rows & x' & y' & _ & E' & _ & _ & H). rewrite E in E'. injection E' as <- <-.
  apply (H 2) in S; [|cbn; lia|]; [destruct S as [->|S]; [destruct (H0 eq_refl)|cbn [Nat.pow] in S; lia]|]. intros l Hl. destruct l as [|[|l]]; cbn; lia.
Qed.
Print Assumptions C48_period_3_refuted.
(** Without the NaN entries of the fast part the times increase for every period. *)
Definition present (W : Type) (p : nat * option W) : bool := match snd p with Some _ => true | None => false end.
Theorem C48_present (K : OFld) junk (lin : list K) n (multi : list (list (option K))) binning r x y : _inspect_binning binning = Ok binning ->
  2 <= n -> n mod 2 = 0 -> length lin mod n = 0 -> lin <> [] -> (forall row, In row multi -> length row = n) -> log_merge (f0 K) (real_conv K junk) lin n multi binning r = Ok (x, y) ->
  StronglySorted lt (map fst (filter (@present K) (combine x y))).
Proof.
  intros Hb H2 Hn HM HE HR E. set (period := length lin / n). assert (HL : length lin = period * n) by (unfold period; rewrite (Nat.div_mod (length lin) n) at 1 by lia; lia).
  assert (Hp : 1 <= period). { destruct period; [destruct lin; [destruct (HE eq_refl)|discriminate]|lia]. }
  destruct (@C48_log_merge K junk lin n multi period binning r Hb H2 Hn Hp HL HR) as (rows & x' & y' & E1 & E' & _ & EC & _). rewrite E in E'. injection E' as <- <-. rewrite EC, filter_app, map_app. apply sorted_app.
  destruct (@multilevel_shape K (f0 K) (real_conv K junk) (@real_conv_ok K junk) lin (Z.of_nat n) binning r Hb ltac:(lia)) as (rows' & E1' & HL1 & HR1 & HN). rewrite E1 in E1'. apply ok_inj in E1'. subst rows'. rewrite Nat2Z.id in *.
  assert (H0 : rows <> []) by (intros ->; discriminate). destruct (@C48_full (option K) n rows None Hn H0 HR1) as (xf & yf & _ & _ & EF & SF).
  destruct (@C48_half (option K) n multi None Hn HR) as (xs & ys & F1 & F2 & F3 & F4).
  assert (FS : map fst (merged_half (2 * period) n multi None) = flat_map (level_times n (2 * period)) (seq 0 (length multi))).
  { unfold merged_half. rewrite map_flat_map, !flat_map_concat_map. f_equal. apply map_ext. intros l. rewrite map_map. unfold level_times. apply map_ext. intros k. cbn [fst]. lia. }
  repeat split.
  - apply sorted_filter. assert (X : map fst (merged_full n rows None) = seq 0 n ++ flat_map (level_times n 1) (seq 1 (length rows - 1))).
    { unfold merged_full. rewrite map_app, map_map, map_id. f_equal. rewrite map_flat_map, !flat_map_concat_map. f_equal. apply map_ext. intros l. rewrite map_map. unfold level_times. apply map_ext. intros k. cbn [fst]. lia. }
    rewrite X. apply full_sorted. exact Hn.
  - apply sorted_filter. rewrite FS. apply levels_sorted; [exact Hn|lia].
  - intros t t' Ht Ht'. apply in_map_iff in Ht. destruct Ht as ([t1 v] & <- & Ht). apply filter_In in Ht. destruct Ht as [Ht HP].
    assert (Hs : period * n <= t').
    { apply in_map_iff in Ht'. destruct Ht' as (p & <- & Hp'). apply filter_In in Hp'. destruct Hp' as [Hp' _]. apply (in_map fst) in Hp'. rewrite FS in Hp'. apply slow_min in Hp'; [|exact Hn|lia]. nia. }
    assert (Hf : t1 < period * n); [|cbn [fst]; lia]. cbn [fst]. rewrite <- HL. apply Nat.nle_gt. intros C. unfold present in HP. cbn [snd] in HP. assert (v = None) as ->; [|discriminate].
    unfold merged_full in Ht. apply in_app_or in Ht. destruct Ht as [Ht|Ht].
    + apply in_map_iff in Ht. destruct Ht as (k & Ek & Hk). injection Ek as <- <-. apply in_seq in Hk. apply (HN 0 k); [lia|lia|cbn [Nat.pow]; lia].
    + apply in_flat_map in Ht. destruct Ht as (l & Hl & Ht). apply in_map_iff in Ht. destruct Ht as (k & Ek & Hk). injection Ek as <- <-. apply in_seq in Hk. apply in_seq in Hl. apply (HN l k); lia.
Qed.
Print Assumptions C48_present.
(** t_multilevel lists the times of the slow data, of which log_merge takes the second halves. *)
Theorem C48_t_multilevel levels n period : n mod 2 = 0 ->
  t_multilevel levels n period = map (fun l => map (fun k => 2 * period * (k * 2 ^ l)) (seq 0 n)) (seq 0 levels) /\
  forall (W : Type) (multi : list (list W)) d, length multi = levels -> map fst (merged_half (2 * period) n multi d) = flat_map (skipn (n / 2)) (t_multilevel levels n period).
Proof.
  intros Hn. assert (E : t_multilevel levels n period = map (fun l => map (fun k => 2 * period * (k * 2 ^ l)) (seq 0 n)) (seq 0 levels)).
  { unfold t_multilevel. set (body := fun (_ : nat) (s : list nat * list (list nat)) => _).
    assert (P : for_range 0 levels body (map (fun k => k * period * 2) (seq 0 n), []) = (map (fun k => 2 * period * (k * 2 ^ levels)) (seq 0 n), map (fun l => map (fun k => 2 * period * (k * 2 ^ l)) (seq 0 n)) (seq 0 levels))).
    { apply (@for_range_inv _ (fun i s => s = (map (fun k => 2 * period * (k * 2 ^ i)) (seq 0 n), map (fun l => map (fun k => 2 * period * (k * 2 ^ l)) (seq 0 n)) (seq 0 i)))).
      - lia.
      - f_equal. apply map_ext. intros k. cbn [Nat.pow]. lia.
      - intros i s _ ->. unfold body. f_equal.
        + rewrite map_map. apply map_ext. intros k. rewrite pow2_S. lia.
        + rewrite seq_last, map_app. reflexivity. }
    rewrite P. reflexivity. }
  split; [exact E|]. intros W multi d HL. rewrite E. unfold merged_half. rewrite HL, map_flat_map, flat_map_map', !flat_map_concat_map. f_equal. apply map_ext. intros l. rewrite skipn_map, skipn_half by exact Hn. rewrite map_map. apply map_ext. intros k. cbn [fst]. reflexivity.
Qed.
Print Assumptions C48_t_multilevel.
Theorem C48_errors (K : OFld) junk (lin : list K) n (multi : list (list (option K))) binning r (W : Type) (data : list (list W)) :
  (n mod 2 = 1 -> merge_half n data = Raise ValueError /\ (data <> [] -> merge_full n data = Raise ValueError)) /\ merge_full n (@nil (list W)) = Raise IndexError /\
  (_inspect_binning binning = Ok binning -> n = 0 -> log_merge (f0 K) (real_conv K junk) lin n multi binning r = Raise ZeroDivisionError) /\
  (_inspect_binning binning = Ok binning -> n <> 0 -> (length lin mod n <> 0 \/ n mod 2 = 1) -> log_merge (f0 K) (real_conv K junk) lin n multi binning r = Raise ValueError) /\
  (forall size, (size < 1)%Z -> log_average (f0 K) (real_conv K junk) lin size r = Raise ValueError).
Proof.
  split; [intros H; apply merge_odd; exact H|]. split; [reflexivity|]. split; [intros Hb ->; unfold log_merge; rewrite Hb; reflexivity|]. split.
  - intros Hb H0 H. unfold log_merge. rewrite Hb. cbn [bind]. replace (n =? 0) with false by lia. destruct (Nat.eqb_spec (length lin mod n) 0) as [C|C]; [|reflexivity]. cbn [negb]. destruct H as [H|H]; [lia|].
    destruct (Nat.eq_dec n 1) as [->|C1]; [unfold multilevel; rewrite Hb; reflexivity|].
    destruct (@multilevel_shape K (f0 K) (real_conv K junk) (@real_conv_ok K junk) lin (Z.of_nat n) binning r Hb ltac:(lia)) as (rows & -> & HL & _). cbn [bind].
    destruct (@merge_odd (option K) n rows H) as [_ X]. rewrite X; [reflexivity|]. intros ->. discriminate.
  - intros size H. unfold log_average. replace (size <? 1)%Z with true by lia. reflexivity.
Qed.
Print Assumptions C48_errors.
Definition show_merged (r : res (list nat * list (option QcO))) := match r with Ok (x, y) => Ok (combine x (show_row y)) | Raise e => Raise e end.
Example C48_holds :
  show_merged (log_average (q 0) (real_conv QcO (fun _ => q 9)) [q 0; q 8; q 4; q 4; q 12; q 16; q 1; q 4] 2 (fun _ => true)) =
    Ok [(0, Some (0, 1)%Z); (1, Some (8, 1)%Z); (2, Some (4, 1)%Z); (3, Some (4, 1)%Z); (4, Some (11, 1)%Z); (6, Some (11, 2)%Z)] /\
  show_merged (log_merge (q 0) (real_conv QcO (fun _ => q 9)) [q 0; q 8; q 4; q 4] 2 [[Some (q 5); Some (q 6)]; [Some (q 7); Some (q 8)]] BINNING_MEAN (fun _ => true)) =
    Ok [(0, Some (0, 1)%Z); (1, Some (8, 1)%Z); (2, Some (5, 1)%Z); (4, Some (6, 1)%Z); (8, Some (8, 1)%Z)] /\
  t_multilevel 2 4 3 = [[0; 6; 12; 18]; [0; 12; 24; 36]].
Proof. vm_compute. repeat split. Qed.
(** With period 3 and rows of four the fast part ends with 12, and so does the slow part begin. *)
Example C48_refuted_case :
  show_merged (log_merge (q 0) (real_conv QcO (fun _ => q 9)) (map q [0; 1; 2; 3; 4; 5; 6; 7; 8; 9; 10; 11]%Z) 4 [[Some (q 5); Some (q 6); Some (q 7); Some (q 8)]] BINNING_MEAN (fun _ => true)) =
    Ok [(0, Some (0, 1)%Z); (1, Some (1, 1)%Z); (2, Some (2, 1)%Z); (3, Some (3, 1)%Z); (4, Some (4, 1)%Z); (6, Some (6, 1)%Z); (8, Some (8, 1)%Z); (12, None); (12, Some (7, 1)%Z); (18, Some (8, 1)%Z)].
Proof. vm_compute. reflexivity. Qed.
