(** C94: log-spaced averages and merged results of complex correlation data. *)
From Coq Require Import ZifyBool ZifyNat Sorted.
From Verif Require Import Base Ordered AvgModel Kernels KernelProofs NormModel MultiModel MultiProofs RegularProofs CoreProofs3 NormMode3 AvgProofs AvgProofs2 MultiLevels LevelModel LevelProofs LevelProofs2 LogFoldModel Examples.
Set Implicit Arguments.

(** The mean of the two sides: the delay zero as it is, (z_d + conj z_{-d}) / 2 for the delays
    d = 1 .. n-1, where entry 2n-1-d belongs to the delay -d. *)
Definition half_of (K : Fld) (z : Cx K) : Cx K := cscal (fdiv K (f1 K) (fadd K (f1 K) (f1 K))) z.
Definition both_sides (K : Fld) (n : nat) (data : list (Cx K)) : list (Cx K) :=
  map (fun d => if d =? 0 then nth 0 data (c0 K) else half_of (cadd (nth d data (c0 K)) (conj (nth (2 * n - 1 - d) data (c0 K))))) (seq 0 n).
(** The same for a row with missing entries: missing on either side means missing. *)
Definition both_sides_row (K : Fld) (n : nat) (row : list (option (Cx K))) : list (option (Cx K)) :=
  map (fun d => if d =? 0 then nth 0 row None
                else match nth d row None, nth (2 * n - 1 - d) row None with
                     | Some a, Some b => Some (half_of (cadd a (conj b)))
                     | _, _ => None
                     end) (seq 0 n).

Lemma folded_sides (K : Fld) n (data : list (Cx K)) : 0 < n -> length data = 2 * n - 1 -> fold_data true data 0 = Ok (both_sides n data).
Proof. intros Hn HL. apply fold_mean; assumption. Qed.
Lemma fold_row_sides (K : OFld) n (row : list (option (Cx K))) : 0 < n -> length row = 2 * n - 1 -> fold_row K row = both_sides_row n row.
Proof.
  intros Hn HL. unfold fold_row, both_sides_row. replace ((length row + 1) / 2) with n by (rewrite HL; replace (2 * n - 1 + 1) with (n * 2) by lia; symmetry; apply Nat.div_mul; lia).
  destruct row as [|x l] eqn:ED; [cbn in HL; lia|]. rewrite <- ED in *.
  destruct n as [|m]; [lia|]. rewrite ED at 1. cbn [firstn seq map Nat.eqb]. f_equal; [rewrite ED; reflexivity|].
  assert (LL : length l = 2 * m) by (rewrite ED in HL; cbn [length] in HL; lia).
  apply nth_ext with (d := None) (d' := None).
  - rewrite !map_length, combine_length, firstn_length, seq_length, length_rev_slice by lia. lia.
  - intros i Hi. rewrite map_length, combine_length, firstn_length, length_rev_slice in Hi by lia. assert (HI : i < m) by lia.
    rewrite (@nth_map_in _ _ _ (combine (firstn m l) (rev_slice row (S m))) i None (None, None)) by (rewrite combine_length, firstn_length, length_rev_slice by lia; lia).
    rewrite combine_nth by (rewrite firstn_length, length_rev_slice by lia; lia). cbn [fst snd].
    rewrite (@nth_map_in _ _ _ (seq 1 m) i None 0) by (rewrite seq_length; exact HI). rewrite seq_nth by exact HI. cbn [Nat.add Nat.eqb].
    rewrite nth_rev_slice by lia. replace (length row - 1 - i) with (2 * S m - 1 - S i) by lia.
    assert (E : nth i (firstn m l) None = nth (S i) row None). { rewrite ED. cbn [nth]. rewrite <- (firstn_skipn m l) at 2. rewrite app_nth1; [reflexivity|]. rewrite firstn_length. lia. }
    rewrite E. reflexivity.
Qed.
Lemma both_sides_length (K : Fld) n (data : list (Cx K)) : length (both_sides n data) = n.
Proof. unfold both_sides. rewrite map_length, seq_length. reflexivity. Qed.
Lemma both_sides_row_length (K : Fld) n (row : list (option (Cx K))) : length (both_sides_row n row) = n.
Proof. unfold both_sides_row. rewrite map_length, seq_length. reflexivity. Qed.

(** * Parts: what the code does with complex rows it does with each part. *)
Lemma flat_skipn_map A B (g : A -> B) k rows : flat_map (skipn k) (map (map g) rows) = map g (flat_map (skipn k) rows).
Proof. induction rows as [|row rows IH]; [reflexivity|]. cbn [map flat_map]. rewrite IH, map_app, skipn_map. reflexivity. Qed.
Lemma merge_half_map A B (g : A -> B) n rows x y : merge_half n rows = Ok (x, y) -> merge_half n (map (map g) rows) = Ok (x, map g y).
Proof. unfold merge_half. destruct (negb _); [discriminate|]. intros E. injection E as <- <-. rewrite map_length, flat_skipn_map. reflexivity. Qed.
Lemma merge_full_map A B (g : A -> B) n rows x y : merge_full n rows = Ok (x, y) -> merge_full n (map (map g) rows) = Ok (x, map g y).
Proof.
  destruct rows as [|y0 rest]; [discriminate|]. cbn [map merge_full]. destruct (merge_half n rest) as [[xs ys]|] eqn:E; [|discriminate]. cbn [bind fst snd]. intros H. injection H as <- <-.
  rewrite (@merge_half_map _ _ g _ _ _ _ E). cbn [bind fst snd]. rewrite map_app. reflexivity.
Qed.
Lemma multilevel_parts (K : OFld) junk (data : list (Cx K)) size binning r rows : multilevel (c0 K) (complex_conv K junk) data size binning r = Ok rows ->
  multilevel (f0 K) (real_conv K junk) (map cre data) size binning r = Ok (map (map (option_map cre)) rows) /\
  multilevel (f0 K) (real_conv K junk) (map cim data) size binning r = Ok (map (map (option_map cim)) rows).
Proof.
  unfold multilevel. destruct (_inspect_binning binning); [|discriminate]. cbn [bind]. destruct (size <? 2)%Z; [discriminate|]. rewrite !map_length. intros E. split.
  - apply (@level_rows_map (Cx K) K cre (c0 K) (complex_conv K junk)); [|intros d d' H; apply complex_conv_parts in H; tauto|exact E]. intros d d' _ H. apply complex_conv_parts in H. tauto.
  - apply (@level_rows_map (Cx K) K cim (c0 K) (complex_conv K junk)); [|intros d d' H; apply complex_conv_parts in H; tauto|exact E]. intros d d' _ H. apply complex_conv_parts in H. tauto.
Qed.
Lemma inspected b : b = BINNING_CHOOSE \/ b = BINNING_MEAN \/ b = BINNING_FIRST -> _inspect_binning b = Ok b.
Proof. intros [E|[E|E]]; subst b; reflexivity. Qed.
Lemma inspected_inv b : _inspect_binning b = Ok b -> b = BINNING_CHOOSE \/ b = BINNING_MEAN \/ b = BINNING_FIRST.
Proof. unfold _inspect_binning. destruct (_ || _)%bool eqn:E; [|discriminate]. intros _. lia. Qed.

(** log_average with fold = True: the two parts of the result are the log averages of the two
    parts of the mean of both sides, at the same times. *)
Theorem C94_average (K : OFld) junk n (data : list (Cx K)) size r : 0 < n -> length data = 2 * n - 1 -> (1 <= size)%Z ->
  exists x y, log_average_any K junk true data size (Some true) r = Ok (x, y) /\
    log_average (f0 K) (real_conv K junk) (map cre (both_sides n data)) size r = Ok (x, map (option_map cre) y) /\
    log_average (f0 K) (real_conv K junk) (map cim (both_sides n data)) size r = Ok (x, map (option_map cim) y).
Proof.
  intros Hn HL Hs. unfold log_average_any, log_average, multilevel_any. replace (size <? 1)%Z with false by lia. cbn [_inspect_binning bind]. change (_inspect_binning BINNING_MEAN) with (Ok BINNING_MEAN). cbn [bind].
  replace (size * 2 <? 2)%Z with false by lia. unfold decide_fold, folded_data. rewrite (folded_sides _ Hn HL). cbn [bind].
  destruct (@multilevel_shape (Cx K) (c0 K) (complex_conv K junk) (@complex_conv_ok K junk) (both_sides n data) (size * 2) BINNING_MEAN r eq_refl ltac:(lia)) as (rows & E & HL1 & HR & _).
  destruct (@multilevel_parts K junk _ _ _ _ _ E) as [E1 E2]. rewrite E, E1, E2. cbn [bind].
  destruct rows as [|y0 rest]; [discriminate|]. assert (Hm : Z.to_nat (size * 2) mod 2 = 0) by lia. rewrite (@merge_full_ok _ _ _ _ Hm). do 2 eexists. split; [reflexivity|].
  rewrite (@merge_full_map _ _ (option_map cre) _ _ _ _ (@merge_full_ok _ _ y0 rest Hm)), (@merge_full_map _ _ (option_map cim) _ _ _ _ (@merge_full_ok _ _ y0 rest Hm)). split; reflexivity.
Qed.
Print Assumptions C94_average.

(** log_merge with fold = True: the two parts of the result are the merged results of the two
    parts of the means of both sides, with the times, the period and the order of real data. *)
Theorem C94_merge (K : OFld) junk n period (lin : list (Cx K)) (multi : list (list (option (Cx K)))) binning r : _inspect_binning binning = Ok binning ->
  2 <= n -> n mod 2 = 0 -> 1 <= period -> length lin = 2 * (period * n) - 1 -> (forall row, In row multi -> length row = 2 * n - 1) ->
  exists x y, log_merge_any K junk true true lin (2 * n - 1) multi binning (Some true) r = Ok (x, y) /\
    log_merge (f0 K) (real_conv K junk) (map cre (both_sides (period * n) lin)) n (map (fun row => map (option_map cre) (both_sides_row n row)) multi) binning r = Ok (x, map (option_map cre) y) /\
    log_merge (f0 K) (real_conv K junk) (map cim (both_sides (period * n) lin)) n (map (fun row => map (option_map cim) (both_sides_row n row)) multi) binning r = Ok (x, map (option_map cim) y).
Proof.
  intros Hb H2 Hn Hp HL HR. assert (HP : 0 < period * n) by nia.
  unfold log_merge_any, log_merge, multilevel_any. rewrite Hb. cbn [bind]. unfold decide_fold, folded_data. rewrite (folded_sides _ HP HL). cbn [bind].
  replace ((2 * n - 1 + 1) / 2) with n by (replace (2 * n - 1 + 1) with (n * 2) by lia; symmetry; apply Nat.div_mul; lia).
  replace (n =? 0) with false by lia. rewrite !map_length, !both_sides_length, Nat.mod_mul, Nat.div_mul by lia. cbn [Nat.eqb negb]. rewrite Hb. cbn [bind]. replace (Z.of_nat n <? 2)%Z with false by lia.
  destruct (@multilevel_shape (Cx K) (c0 K) (complex_conv K junk) (@complex_conv_ok K junk) (both_sides (period * n) lin) (Z.of_nat n) binning r Hb ltac:(lia)) as (rows & E & HL1 & HR1 & _).
  destruct (@multilevel_parts K junk _ _ _ _ _ E) as [E1 E2]. rewrite E, E1, E2. cbn [bind].
  destruct rows as [|y0 rest]; [discriminate|]. rewrite (@merge_full_ok _ _ _ _ Hn). cbn [bind].
  rewrite (@merge_full_map _ _ (option_map cre) _ _ _ _ (@merge_full_ok _ _ y0 rest Hn)), (@merge_full_map _ _ (option_map cim) _ _ _ _ (@merge_full_ok _ _ y0 rest Hn)). cbn [bind].
  assert (EM : map (fold_row K) multi = map (@both_sides_row K n) multi). { apply map_ext_in. intros row H. apply fold_row_sides; [lia|apply HR; exact H]. } rewrite EM.
  assert (X : exists xs ys, merge_half n (map (@both_sides_row K n) multi) = Ok (xs, ys)). { rewrite merge_half_ok by exact Hn. do 2 eexists. reflexivity. } destruct X as (xs & ys & X).
  assert (EC : forall (g : option (Cx K) -> option K), map (fun row => map g (both_sides_row n row)) multi = map (map g) (map (@both_sides_row K n) multi)) by (intros g; rewrite map_map; reflexivity).
  rewrite !EC, (@merge_half_map _ _ (option_map cre) _ _ _ _ X), (@merge_half_map _ _ (option_map cim) _ _ _ _ X), X. cbn [bind fst snd]. do 2 eexists. split; [reflexivity|]. rewrite !map_app. split; reflexivity.
Qed.
Print Assumptions C94_merge.

(** Arrays of real dtype: fold is not looked at, and the result is that of the real functions. *)
Theorem C94_real (K : OFld) junk (lin : list (Cx K)) n (multi : list (list (option (Cx K)))) size binning fold r :
  log_merge_any K junk false false lin n multi binning fold r = log_merge_any K junk false false lin n multi binning None r /\
  (forall x y, log_merge_any K junk false false lin n multi binning fold r = Ok (x, y) ->
    log_merge (f0 K) (real_conv K junk) (map cre lin) n (map (map (option_map cre)) multi) binning r = Ok (x, map (option_map cre) y)) /\
  log_average_any K junk false lin size fold r = log_average_any K junk false lin size None r /\
  (forall x y, log_average_any K junk false lin size fold r = Ok (x, y) -> log_average (f0 K) (real_conv K junk) (map cre lin) size r = Ok (x, map (option_map cre) y)).
Proof.
  split; [reflexivity|]. split; [|split; [reflexivity|]].
  - intros x y. unfold log_merge_any, log_merge, multilevel_any, decide_fold. destruct (_inspect_binning binning) as [b|] eqn:Hb; [|discriminate]. cbn [bind]. destruct (n =? 0); [discriminate|].
    rewrite !map_length. destruct (negb _); [discriminate|]. assert (b = binning) as ->. { unfold _inspect_binning in Hb. destruct (_ || _)%bool; [injection Hb as <-; reflexivity|discriminate]. }
    rewrite Hb. cbn [bind]. destruct (Z.of_nat n <? 2)%Z; [discriminate|]. destruct (multilevel (c0 K) _ _ _ _ _) as [rows|] eqn:E; [|discriminate]. destruct (@multilevel_parts K junk _ _ _ _ _ E) as [E1 _]. rewrite E1. cbn [bind].
    destruct (merge_full n rows) as [[x1 y1]|] eqn:E3; [|discriminate]. rewrite (@merge_full_map _ _ (option_map cre) _ _ _ _ E3). cbn [bind]. destruct (merge_half n multi) as [[x2 y2]|] eqn:E4; [|discriminate]. rewrite (@merge_half_map _ _ (option_map cre) _ _ _ _ E4). cbn [bind fst snd].
    intros X. injection X as <- <-. rewrite map_app. reflexivity.
  - intros x y. unfold log_average_any, log_average, multilevel_any, decide_fold. destruct (size <? 1)%Z; [discriminate|]. change (_inspect_binning BINNING_MEAN) with (Ok BINNING_MEAN). cbn [bind]. destruct (size * 2 <? 2)%Z; [discriminate|].
    destruct (multilevel (c0 K) _ _ _ _ _) as [rows|] eqn:E; [|discriminate]. destruct (@multilevel_parts K junk _ _ _ _ _ E) as [E1 _]. rewrite E1. cbn [bind]. intros E3. rewrite (@merge_full_map _ _ (option_map cre) _ _ _ _ E3). reflexivity.
Qed.
Print Assumptions C94_real.

(** Complex arrays without a decision about folding are refused, by either argument of log_merge. *)
Theorem C94_undecided (K : OFld) junk c1 c2 (lin : list (Cx K)) n (multi : list (list (option (Cx K)))) size binning r :
  (c1 || c2 = true -> log_merge_any K junk c1 c2 lin n multi binning None r = Raise ValueError) /\ log_average_any K junk true lin size None r = Raise ValueError.
Proof.
  split.
  - intros H. unfold log_merge_any, _inspect_binning. destruct ((_ || _) || _)%bool; [|reflexivity]. cbn [bind]. destruct c1, c2; cbn in H; try discriminate; reflexivity.
  - unfold log_average_any, multilevel_any. destruct (size <? 1)%Z; [reflexivity|]. change (_inspect_binning BINNING_MEAN) with (Ok BINNING_MEAN). cbn [bind]. destruct (size * 2 <? 2)%Z; reflexivity.
Qed.
Print Assumptions C94_undecided.

Section Half.
  Variable K : OFld.
  Add Field KC94 : (flaw K).
  Lemma two_not_zero : fadd K (f1 K) (f1 K) <> f0 K.
  Proof. intros E. apply (@fnat_neq0 K 2); [discriminate|]. rewrite fnat_2. exact E. Qed.
  Lemma half_twice (z : Cx K) : half_of (cadd z (conj (conj z))) = z.
  Proof. destruct z as [a b]. unfold half_of, cscal, cadd, conj, cre, cim. cbn [fst snd]. f_equal; field; exact two_not_zero. Qed.
End Half.
(** Correlations whose negative delays are the conjugates of the positive ones (those of a
    video with itself): folding only takes the non-negative delays. *)
Theorem C94_hermitian (K : OFld) n (data : list (Cx K)) : 0 < n -> length data = 2 * n - 1 ->
  (forall d, 1 <= d -> d < n -> nth (2 * n - 1 - d) data (c0 K) = conj (nth d data (c0 K))) -> fold_data true data 0 = Ok (firstn n data).
Proof.
  intros Hn HL H. rewrite (folded_sides _ Hn HL). f_equal. apply nth_ext with (d := c0 K) (d' := c0 K); [rewrite both_sides_length, firstn_length; lia|]. rewrite both_sides_length. intros d Hd.
  unfold both_sides. rewrite (nth_map_seq (fun d => if d =? 0 then nth 0 data (c0 K) else half_of (cadd (nth d data (c0 K)) (conj (nth (2 * n - 1 - d) data (c0 K)))))) by exact Hd.
  assert (EF : nth d (firstn n data) (c0 K) = nth d data (c0 K)). { rewrite <- (firstn_skipn n data) at 2. rewrite app_nth1; [reflexivity|]. rewrite firstn_length. lia. } rewrite EF.
  destruct d as [|d]; [reflexivity|]. cbn [Nat.eqb]. rewrite (H (S d)) by lia. apply half_twice.
Qed.
Print Assumptions C94_hermitian.

(** Not folding is offered for complex data, but log_merge cannot do it: the complex results of
    the multiple tau algorithm have 2n-1 entries, and rows of odd length are refused. *)
Theorem C94_merge_unfolded_refuted (K : OFld) junk c1 c2 (lin : list (Cx K)) n (multi : list (list (option (Cx K)))) binning r : 1 <= n ->
  log_merge_any K junk c1 c2 lin (2 * n - 1) multi binning (Some false) r = Raise ValueError.
Proof.
  intros Hn. unfold log_merge_any. destruct (_inspect_binning binning) as [b|e] eqn:Hb; cbn [bind]; [|unfold _inspect_binning in Hb; destruct (_ || _)%bool; congruence].
  assert (b = binning) as -> by (unfold _inspect_binning in Hb; destruct (_ || _)%bool; congruence).
  assert (D : forall A c (a x : A), decide_fold c (Some false) a x = Ok x) by (intros A c a x; destruct c; reflexivity). rewrite !D. cbn [bind].
  replace (2 * n - 1 =? 0) with false by lia. destruct (negb _); [reflexivity|]. unfold multilevel_any. rewrite Hb. cbn [bind]. destruct (Z.of_nat (2 * n - 1) <? 2)%Z eqn:E2; [reflexivity|]. rewrite D. cbn [bind].
  destruct (@multilevel_shape (Cx K) (c0 K) (complex_conv K junk) (@complex_conv_ok K junk) lin (Z.of_nat (2 * n - 1)) binning r Hb ltac:(lia)) as (rows & E & HL1 & _ & _). rewrite E. cbn [bind].
  destruct (@merge_odd (option (Cx K)) (2 * n - 1) rows ltac:(lia)) as [_ X]. rewrite X; [reflexivity|]. intros ->. discriminate.
Qed.
Print Assumptions C94_merge_unfolded_refuted.
(** log_average can, but the entries of the negative delays come out at positive times: with
    size large enough, entry k is given for the time k, and the entries n .. 2n-2 belong to the
    delays k - (2n-1). *)
Theorem C94_average_unfolded_refuted (K : OFld) junk n (data : list (Cx K)) size r : 1 <= n -> length data = 2 * n - 1 -> (1 <= size)%Z ->
  exists x y, log_average_any K junk true data size (Some false) r = Ok (x, y) /\
    forall k, k < Z.to_nat (size * 2) -> k < 2 * n - 1 -> nth k x 0 = k /\ nth k y None = Some (nth k data (c0 K)).
Proof.
  intros Hn HL Hs. unfold log_average_any, multilevel_any. replace (size <? 1)%Z with false by lia. change (_inspect_binning BINNING_MEAN) with (Ok BINNING_MEAN). cbn [bind].
  replace (size * 2 <? 2)%Z with false by lia. cbn [decide_fold bind]. set (m := Z.to_nat (size * 2)) in *. assert (Hm : m mod 2 = 0) by (unfold m; lia).
  destruct (@multilevel_shape (Cx K) (c0 K) (complex_conv K junk) (@complex_conv_ok K junk) data (size * 2) BINNING_MEAN r eq_refl ltac:(lia)) as (rows & E & HL1 & HR & _).
  rewrite E. cbn [bind]. destruct rows as [|y0 rest]; [discriminate|]. rewrite (@merge_full_ok _ _ _ _ Hm). do 2 eexists. split; [reflexivity|]. intros k K1 K2.
  assert (L0 : length y0 = m) by (apply HR; left; reflexivity). rewrite app_nth1 by (rewrite seq_length; exact K1). rewrite seq_nth by exact K1. split; [reflexivity|]. rewrite app_nth1 by lia.
  assert (E0 : y0 = level_row m data).
  { unfold multilevel in E. change (_inspect_binning BINNING_MEAN) with (Ok BINNING_MEAN) in E. cbn [bind] in E. replace (size * 2 <? 2)%Z with false in E by lia. fold m in E. destruct (levels_of m (length data)); cbn [level_rows] in E.
    - congruence.
    - destruct (next_level _ _ _ _) as [nx|]; [|discriminate]. cbn [bind] in E. destruct (level_rows _ _ _ _ _ _ _ nx) as [rw|]; [|discriminate]. cbn [bind] in E. congruence. }
  rewrite E0. unfold level_row. rewrite app_nth1 by (rewrite map_length, firstn_length; lia). rewrite (@nth_map_in _ _ _ (firstn m data) k None (c0 K)) by (rewrite firstn_length; lia). f_equal.
  rewrite <- (firstn_skipn m data) at 2. rewrite app_nth1; [reflexivity|]. rewrite firstn_length. lia.
Qed.
Print Assumptions C94_average_unfolded_refuted.

Definition show_z (o : option (Cx QcO)) := match o with Some z => Some (show (cre z), show (cim z)) | None => None end.
Definition show_log (r : res (list nat * list (option (Cx QcO)))) := match r with Ok (x, y) => Ok (combine (map Z.of_nat x) (map show_z y)) | Raise e => Raise e end.
Definition z94 (a b : Z) : Cx QcO := (q a, q b).
Definition lin94 : list (Cx QcO) := [z94 8 0; z94 6 1; z94 4 2; z94 2 3; z94 0 (-1); z94 2 (-2); z94 4 (-3)].
Definition multi94 : list (list (option (Cx QcO))) := [[Some (z94 5 0); Some (z94 3 1); Some (z94 1 1)]; [Some (z94 4 0); Some (z94 2 0); None]].
(** Delays 0 .. 3 and -3 .. -1; period 2, rows of two delays. *)
Example C94_example :
  show_log (log_merge_any QcO (fun _ => q 9) true true lin94 3 multi94 BINNING_MEAN (Some true) (fun _ => true)) =
    Ok [(0, Some ((8, 1), (0, 1))); (1, Some ((5, 1), (2, 1))); (2, Some ((3, 1), (2, 1))); (4, Some ((2, 1), (0, 1))); (8, None)]%Z /\
  log_merge_any QcO (fun _ => q 9) true true lin94 3 multi94 BINNING_MEAN (Some false) (fun _ => true) = Raise ValueError /\
  log_merge_any QcO (fun _ => q 9) true true lin94 3 multi94 BINNING_MEAN None (fun _ => true) = Raise ValueError /\
  show_log (log_average_any QcO (fun _ => q 9) true lin94 4 (Some true) (fun _ => true)) =
    Ok [(0, Some ((8, 1), (0, 1))); (1, Some ((5, 1), (2, 1))); (2, Some ((3, 1), (2, 1))); (3, Some ((1, 1), (2, 1))); (4, None); (5, None); (6, None); (7, None)]%Z /\
  show_log (log_average_any QcO (fun _ => q 9) true lin94 4 (Some false) (fun _ => true)) =
    Ok [(0, Some ((8, 1), (0, 1))); (1, Some ((6, 1), (1, 1))); (2, Some ((4, 1), (2, 1))); (3, Some ((2, 1), (3, 1))); (4, Some ((0, 1), (-1, 1))); (5, Some ((2, 1), (-2, 1))); (6, Some ((4, 1), (-3, 1))); (7, None)]%Z.
Proof. vm_compute. repeat split. Qed.
