(** Properties C07-C12, C15, C16: counts, sums, accumulation, symmetries, default
    sizes, folding, and the relation of auto to cross data. *)
From Verif Require Import Base Kernels PairSpec CoreModel RegularProofs CoreProofs CoreProofs2 CoreProofs3
  CoreApi CoreApi2 Examples Prop_Core1.
Set Implicit Arguments.

(** The times of a count argument: an array, or a length that stands for regular
    times; a missing second argument means that the first is used again. *)
Definition count_times (a : targ) : list Z := match a with TScalar n => arange n | TArray t => t end.
Definition count_times2 (a : targ) (b : option targ) : list Z :=
  match b with Some b => count_times b | None => count_times a end.

(* ------------------------------------------------------------------ *)
(** * C07 *)
Theorem C07_counts_count_pairs t1 t2 n : (0 < n)%nat ->
  cross_count t1 t2 (Some n) false None =
    Ok (map (fun k => length (pairs_at k (times (count_times t1)) (times (count_times2 t1 t2)))) (seq 0 n)) /\
  cross_count t1 t2 (Some n) true None =
    Ok (map (fun i => length (pairs_signed (lag_at n i) (times (count_times t1)) (times (count_times2 t1 t2))))
            (seq 0 (2 * n - 1))) /\
  auto_count t1 (Some n) None =
    Ok (map (fun k => length (upairs_at k (times (count_times t1)))) (seq 0 n)).
Proof.
  intros Hn. split; [|split].
  - exact (cross_count_real_fresh t1 t2 n).
  - exact (@cross_count_complex_fresh t1 t2 n Hn).
  - exact (auto_count_fresh t1 n).
Qed.
Print Assumptions C07_counts_count_pairs.
Theorem C07_counts_are_correlations_of_ones (K : Fld) t1 t2 n : length t1 = length t2 -> t1 <> [] -> (0 < n)%nat ->
  let ones := repeat (c1 K) (length t1) in
  (exists c, cross_count (TArray t1) (Some (TArray t2)) (Some n) false None = Ok c /\
    cross_correlate ones ones (Some t1) (Some t2) (Some n) false None = Ok (map (fnat K) c)) /\
  (exists c, cross_count (TArray t1) (Some (TArray t2)) (Some n) true None = Ok c /\
    cross_correlate_complex ones ones (Some t1) (Some t2) (Some n) false None =
    Ok (map (fun m => cofre (fnat K m)) c)) /\
  (exists c, auto_count (TArray t1) (Some n) None = Ok c /\
    auto_correlate ones (Some t1) (Some n) false None = Ok (map (fnat K) c)).
Proof.
  intros HL Hne Hn. split; [|split].
  - apply count_is_ones_correlation; assumption.
  - apply count_is_ones_correlation_complex; assumption.
  - apply auto_count_is_ones_correlation; assumption.
Qed.
Print Assumptions C07_counts_are_correlations_of_ones.
Example C07_example :
  cross_count (TArray xt1) (Some (TArray xt2)) (Some 3%nat) false None = Ok [1; 4; 0]%nat /\
  cross_count (TArray xt1) (Some (TArray xt2)) (Some 3%nat) true None = Ok [1; 2; 0; 0; 2]%nat /\
  auto_count (TScalar 4) (Some 3%nat) None = Ok [4; 3; 2]%nat.
Proof. repeat split. Qed.

(* ------------------------------------------------------------------ *)
(** * C08 *)
Theorem C08_cross_sum_real (G : QGrp) (f : list G) t t_other n inv :
  valid_sum f t t_other -> (t = None -> n <= length f + 1)%nat ->
  cross_sum G f t t_other (Some n) false inv None =
  Ok (map (sum_spec G (samples f t) (other_times f t_other)) (seq 0 n)).
Proof. exact (@cross_sum_real_fresh G f t t_other n inv). Qed.
Print Assumptions C08_cross_sum_real.
Theorem C08_cross_sum_complex (G : QGrp) (f : list G) t t_other n inv :
  valid_sum f t t_other -> (0 < n)%nat -> (t = None -> n <= length f + 1)%nat ->
  cross_sum G f t t_other (Some n) true inv None =
  Ok (map (fun i => sum_signed_spec G (samples f t) (other_times f t_other)
                      (if inv then - lag_at n i else lag_at n i)%Z) (seq 0 (2 * n - 1))).
Proof. exact (@cross_sum_complex_fresh G f t t_other n inv). Qed.
Print Assumptions C08_cross_sum_complex.
Example C08_example :
  show_all showc (cross_sum (cgrp QcF) xf1 None None (Some 3%nat) true true None) =
  Ok [((4, 1), (2, 1)); ((3, 1), (0, 1)); ((0, 1), (1, 1)); ((1, 1), (2, 1)); ((4, 1), (1, 1))]%Z /\
  show_all showc (cross_sum (cgrp QcF) xf1 (Some xt1) (Some xt2) (Some 2%nat) false false None) =
  Ok [((3, 1), (-1, 1)); ((2, 1), (6, 1))]%Z.
Proof. split; reflexivity. Qed.

(* ------------------------------------------------------------------ *)
(** * C09 *)
Theorem C09_auto_sum_averages_ends (G : QGrp) (f : list G) t n :
  valid_auto f t -> distinct (samples f t) -> (t = None -> n <= length f + 1)%nat ->
  auto_sum G f t (Some n) None = Ok (map (asum_spec G (ahalf G) (samples f t)) (seq 0 n)).
Proof. exact (@auto_sum_means G f t n). Qed.
Print Assumptions C09_auto_sum_averages_ends.
Example C09_example : distinct (samples xf1 (Some xt2)) /\
  show_all showc (auto_sum (cgrp QcF) xf1 (Some xt2) (Some 3%nat) None) =
  Ok [((4, 1), (2, 1)); ((0, 1), (0, 1)); ((2, 1), (1, 2))]%Z.
Proof. split; [repeat constructor; simpl; intuition lia|reflexivity]. Qed.
Theorem C09_repeated_times_refuted :
  exists (f : list QcF) t out, valid_auto f (Some t) /\
    auto_sum (fgrp QcF) f (Some t) (Some 1%nat) None = Ok out /\
    nth 0 out (q 0) <> asum_spec (fmon QcF) (ahalf (fgrp QcF)) (samples f (Some t)) 0.
Proof.
  exists [q 1; q 1], [0; 0]%Z. eexists. split; [repeat split; discriminate|]. split; [reflexivity|].
  intros E. apply (f_equal show) in E. discriminate E.
Qed.
Print Assumptions C09_repeated_times_refuted.

(* ------------------------------------------------------------------ *)
(** * C10 *)
(** One call with [aout]: previous plus fresh result. *)
Theorem C10_correlations_accumulate (K : Fld) (f1 f2 : list (Cx K)) t1 t2 n aligned prev prevc :
  valid_cross f1 f2 t1 t2 -> (0 < n)%nat -> (t1 = None -> aligned = true -> n <= length f1 + 1)%nat ->
  length prev = n -> length prevc = (2 * n - 1)%nat ->
  (exists fresh, cross_correlate f1 f2 t1 t2 (Some n) aligned None = Ok fresh /\ length fresh = n /\
    cross_correlate f1 f2 t1 t2 (Some n) aligned (Some prev) = Ok (zip_add (fmon K) prev fresh)) /\
  (exists fresh, cross_correlate_complex f1 f2 t1 t2 (Some n) aligned None = Ok fresh /\
    length fresh = (2 * n - 1)%nat /\
    cross_correlate_complex f1 f2 t1 t2 (Some n) aligned (Some prevc) = Ok (zip_add (cmon K) prevc fresh)) /\
  (exists fresh, cross_difference f1 f2 t1 t2 (Some n) aligned None = Ok fresh /\ length fresh = n /\
    cross_difference f1 f2 t1 t2 (Some n) aligned (Some prev) = Ok (zip_add (fmon K) prev fresh)).
Proof.
  intros HV H0 Hn L1 L2. split; [|split].
  - apply cross_correlate_adds; assumption.
  - apply cross_correlate_complex_adds; assumption.
  - apply cross_difference_adds; assumption.
Qed.
Print Assumptions C10_correlations_accumulate.
Theorem C10_auto_correlations_accumulate (K : Fld) (f : list (Cx K)) t n aligned prev prevc :
  valid_auto f t -> (t = None -> aligned = true -> n <= length f + 1)%nat -> length prev = n -> length prevc = n ->
  (exists fresh, auto_correlate f t (Some n) aligned None = Ok fresh /\ length fresh = n /\
    auto_correlate f t (Some n) aligned (Some prev) = Ok (zip_add (fmon K) prev fresh)) /\
  (exists fresh, auto_correlate_complex f t (Some n) aligned None = Ok fresh /\ length fresh = n /\
    auto_correlate_complex f t (Some n) aligned (Some prevc) = Ok (zip_add (cmon K) prevc fresh)) /\
  (exists fresh, auto_difference f t (Some n) aligned None = Ok fresh /\ length fresh = n /\
    auto_difference f t (Some n) aligned (Some prev) = Ok (zip_add (fmon K) prev fresh)).
Proof.
  intros HV Hn L1 L2. split; [|split].
  - apply auto_correlate_adds; assumption.
  - apply auto_correlate_complex_adds; assumption.
  - apply auto_difference_adds; assumption.
Qed.
Print Assumptions C10_auto_correlations_accumulate.
Theorem C10_sums_accumulate (G : QGrp) (f : list G) t t_other n inv prev prevc :
  valid_sum f t t_other -> valid_auto f t -> (0 < n)%nat -> (t = None -> n <= length f + 1)%nat ->
  length prev = n -> length prevc = (2 * n - 1)%nat ->
  (exists fresh, cross_sum G f t t_other (Some n) false inv None = Ok fresh /\ length fresh = n /\
    cross_sum G f t t_other (Some n) false inv (Some prev) = Ok (zip_add G prev fresh)) /\
  (exists fresh, cross_sum G f t t_other (Some n) true inv None = Ok fresh /\ length fresh = (2 * n - 1)%nat /\
    cross_sum G f t t_other (Some n) true inv (Some prevc) = Ok (zip_add G prevc fresh)) /\
  (exists fresh, auto_sum G f t (Some n) None = Ok fresh /\ length fresh = n /\
    auto_sum G f t (Some n) (Some prev) = Ok (zip_add G prev fresh)).
Proof.
  intros HV HA H0 Hn L1 L2. split; [|split].
  - apply cross_sum_adds; assumption.
  - apply cross_sum_complex_adds; assumption.
  - apply auto_sum_adds; assumption.
Qed.
Print Assumptions C10_sums_accumulate.
Theorem C10_counts_accumulate t1 t2 n prev prevc :
  length prev = n -> (0 < n)%nat -> length prevc = (2 * n - 1)%nat ->
  (exists fresh, cross_count t1 t2 (Some n) false None = Ok fresh /\ length fresh = n /\
    cross_count t1 t2 (Some n) false (Some prev) = Ok (zip_add natmon prev fresh)) /\
  (exists fresh, cross_count t1 t2 (Some n) true None = Ok fresh /\ length fresh = (2 * n - 1)%nat /\
    cross_count t1 t2 (Some n) true (Some prevc) = Ok (zip_add natmon prevc fresh)) /\
  (exists fresh, auto_count t1 (Some n) None = Ok fresh /\ length fresh = n /\
    auto_count t1 (Some n) (Some prev) = Ok (zip_add natmon prev fresh)).
Proof. apply counts_add. Qed.
Print Assumptions C10_counts_accumulate.

(** Any sequence of data sets, in any order: for every function with the property
    shown above for single calls. *)
Theorem C10_sequence_of_data_sets D (M : CMon) (call : D -> option (list M) -> res (list M)) n (ok : D -> Prop) :
  (forall d prev, ok d -> length prev = n ->
     exists fresh, call d None = Ok fresh /\ length fresh = n /\ call d (Some prev) = Ok (zip_add M prev fresh)) ->
  forall ds prev, Forall ok ds -> length prev = n ->
  (exists out, accumulate call prev ds = Ok out /\ length out = n /\
    forall k, (k < n)%nat -> nth k out (m0 M) =
      madd M (nth k prev (m0 M))
        (Sum M ds (fun d => match call d None with Ok fresh => nth k fresh (m0 M) | Raise _ => m0 M end))) /\
  (forall ds', Permutation ds ds' -> accumulate call prev ds = accumulate call prev ds').
Proof.
  intros Hadd ds prev Hok HL. split.
  - apply (@accumulate_fresh D M call n ok Hadd ds prev Hok HL).
  - intros ds' HP. apply (@accumulate_order D M call n ok Hadd ds ds' prev Hok HP HL).
Qed.
Print Assumptions C10_sequence_of_data_sets.
(** For instance, cross_correlate over a list of measurements. *)
Theorem C10_cross_correlate_sequence (K : Fld) n ds prev :
  Forall (fun d : (list (Cx K) * list Z) * (list (Cx K) * list Z) =>
            valid_cross (fst (fst d)) (fst (snd d)) (Some (snd (fst d))) (Some (snd (snd d)))) ds ->
  length prev = n ->
  exists out,
    accumulate (fun d aout => cross_correlate (fst (fst d)) (fst (snd d)) (Some (snd (fst d))) (Some (snd (snd d)))
                                (Some n) true aout) prev ds = Ok out /\
    length out = n /\
    forall k, (k < n)%nat -> nth k out (f0 K) =
      fadd K (nth k prev (f0 K))
        (Sum (fmon K) ds (fun d => corr_spec (combine (fst (fst d)) (snd (fst d)))
                                             (combine (fst (snd d)) (snd (snd d))) k)).
Proof. exact (@cross_correlate_sequence K n ds prev). Qed.
Print Assumptions C10_cross_correlate_sequence.
Example C10_example :
  show_all show (accumulate (fun d aout => cross_correlate (fst (fst d)) (fst (snd d)) (Some (snd (fst d)))
      (Some (snd (snd d))) (Some 2%nat) true aout) [q 10; q 20] [((xf1, xt1), (xf2, xt2)); ((xf2, xt2), (xf1, xt2))]) =
  Ok [(11, 1); (26, 1)]%Z.
Proof. reflexivity. Qed.

(* ------------------------------------------------------------------ *)
(** * C11 *)
Theorem C11_shift_invariance (K : Fld) (f1 f2 : list (Cx K)) t1 t2 c n aligned aout :
  cross_correlate f1 f2 (Some (later c t1)) (Some (later c t2)) n aligned aout =
    cross_correlate f1 f2 (Some t1) (Some t2) n aligned aout /\
  (forall aoutc, cross_correlate_complex f1 f2 (Some (later c t1)) (Some (later c t2)) n aligned aoutc =
    cross_correlate_complex f1 f2 (Some t1) (Some t2) n aligned aoutc) /\
  cross_difference f1 f2 (Some (later c t1)) (Some (later c t2)) n aligned aout =
    cross_difference f1 f2 (Some t1) (Some t2) n aligned aout /\
  auto_correlate f1 (Some (later c t1)) n aligned aout = auto_correlate f1 (Some t1) n aligned aout /\
  (forall aoutc, auto_correlate_complex f1 (Some (later c t1)) n aligned aoutc =
    auto_correlate_complex f1 (Some t1) n aligned aoutc) /\
  auto_difference f1 (Some (later c t1)) n aligned aout = auto_difference f1 (Some t1) n aligned aout.
Proof. apply shift_invariance. Qed.
Print Assumptions C11_shift_invariance.
Theorem C11_shift_invariance_sums (G : QGrp) (f : list G) t t_other c n complex inv :
  (0 < n)%nat ->
  (valid_sum f (Some t) (Some t_other) ->
   cross_sum G f (Some (later c t)) (Some (later c t_other)) (Some n) complex inv None =
   cross_sum G f (Some t) (Some t_other) (Some n) complex inv None) /\
  (valid_auto f (Some t) ->
   auto_sum G f (Some (later c t)) (Some n) None = auto_sum G f (Some t) (Some n) None).
Proof. intros Hn. split; intros H; [apply sum_shift_invariance|apply auto_sum_shift_invariance]; assumption. Qed.
Print Assumptions C11_shift_invariance_sums.
Theorem C11_shift_invariance_counts t1 t2 c n : (0 < n)%nat ->
  cross_count (TArray (later c t1)) (Some (TArray (later c t2))) (Some n) false None =
    cross_count (TArray t1) (Some (TArray t2)) (Some n) false None /\
  cross_count (TArray (later c t1)) (Some (TArray (later c t2))) (Some n) true None =
    cross_count (TArray t1) (Some (TArray t2)) (Some n) true None /\
  auto_count (TArray (later c t1)) (Some n) None = auto_count (TArray t1) (Some n) None.
Proof. apply count_shift_invariance. Qed.
Print Assumptions C11_shift_invariance_counts.

Theorem C11_storage_order (K : Fld) (f1 f2 f1' f2' : list (Cx K)) t1 t2 t1' t2' n aligned :
  valid_cross f1 f2 (Some t1) (Some t2) -> length f1' = length t1' -> length f2' = length t2' ->
  Permutation (combine f1 t1) (combine f1' t1') -> Permutation (combine f2 t2) (combine f2' t2') ->
  cross_correlate f1' f2' (Some t1') (Some t2') (Some n) aligned None =
    cross_correlate f1 f2 (Some t1) (Some t2) (Some n) aligned None /\
  ((0 < n)%nat -> cross_correlate_complex f1' f2' (Some t1') (Some t2') (Some n) aligned None =
    cross_correlate_complex f1 f2 (Some t1) (Some t2) (Some n) aligned None) /\
  cross_difference f1' f2' (Some t1') (Some t2') (Some n) aligned None =
    cross_difference f1 f2 (Some t1) (Some t2) (Some n) aligned None.
Proof. apply order_invariance. Qed.
Print Assumptions C11_storage_order.
Theorem C11_storage_order_auto (K : Fld) (f f' : list (Cx K)) t t' n aligned :
  valid_auto f (Some t) -> length f' = length t' -> Permutation (combine f t) (combine f' t') ->
  auto_correlate f' (Some t') (Some n) aligned None = auto_correlate f (Some t) (Some n) aligned None /\
  auto_difference f' (Some t') (Some n) aligned None = auto_difference f (Some t) (Some n) aligned None /\
  (NoDup t -> auto_correlate_complex f' (Some t') (Some n) aligned None =
              auto_correlate_complex f (Some t) (Some n) aligned None).
Proof. apply auto_order_invariance. Qed.
Print Assumptions C11_storage_order_auto.
(** With repeated times the complex auto-correlation does depend on the order. *)
Theorem C11_complex_auto_order_refuted :
  exists (f f' : list (Cx QcF)) t t', Permutation (combine f t) (combine f' t') /\ valid_auto f (Some t) /\
    valid_auto f' (Some t') /\
    auto_correlate_complex f' (Some t') (Some 1%nat) true None <>
    auto_correlate_complex f (Some t) (Some 1%nat) true None.
Proof.
  exists [cz 1 0; cz 0 1], [cz 0 1; cz 1 0], [0; 0]%Z, [0; 0]%Z.
  split; [apply perm_swap|]. split; [repeat split; discriminate|]. split; [repeat split; discriminate|].
  intros E. apply (f_equal (show_all showc)) in E. discriminate E.
Qed.
Print Assumptions C11_complex_auto_order_refuted.
Theorem C11_storage_order_sums (G : QGrp) (f f' : list G) t t' u u' n complex inv :
  valid_sum f (Some t) (Some u) -> (0 < n)%nat -> length f' = length t' ->
  Permutation (combine f t) (combine f' t') -> Permutation u u' ->
  cross_sum G f' (Some t') (Some u') (Some n) complex inv None =
  cross_sum G f (Some t) (Some u) (Some n) complex inv None.
Proof. apply sum_order_invariance. Qed.
Print Assumptions C11_storage_order_sums.
Theorem C11_storage_order_counts t1 t2 t1' t2' n : (0 < n)%nat -> Permutation t1 t1' -> Permutation t2 t2' ->
  cross_count (TArray t1) (Some (TArray t2)) (Some n) false None =
    cross_count (TArray t1') (Some (TArray t2')) (Some n) false None /\
  cross_count (TArray t1) (Some (TArray t2)) (Some n) true None =
    cross_count (TArray t1') (Some (TArray t2')) (Some n) true None /\
  auto_count (TArray t1) (Some n) None = auto_count (TArray t1') (Some n) None.
Proof. apply count_order_invariance. Qed.
Print Assumptions C11_storage_order_counts.

Theorem C11_swap_signals (K : Fld) (f1 f2 : list (Cx K)) t1 t2 n aligned :
  valid_cross f1 f2 t1 t2 -> (t1 = None -> aligned = true -> n <= length f1 + 1)%nat ->
  cross_correlate f2 f1 t2 t1 (Some n) aligned None = cross_correlate f1 f2 t1 t2 (Some n) aligned None /\
  cross_difference f2 f1 t2 t1 (Some n) aligned None = cross_difference f1 f2 t1 t2 (Some n) aligned None.
Proof. apply swap_signals. Qed.
Print Assumptions C11_swap_signals.
Theorem C11_swap_signals_complex (K : Fld) (f1 f2 : list (Cx K)) t1 t2 n aligned :
  valid_cross f1 f2 t1 t2 -> (0 < n)%nat -> (t1 = None -> aligned = true -> n <= length f1 + 1)%nat ->
  exists out, cross_correlate_complex f1 f2 t1 t2 (Some n) aligned None = Ok out /\
    cross_correlate_complex f2 f1 t2 t1 (Some n) aligned None =
    Ok (map (@conj K) (firstn 1 out ++ rev (skipn 1 out))).
Proof. exact (@swap_signals_complex K f1 f2 t1 t2 n aligned). Qed.
Print Assumptions C11_swap_signals_complex.
Example C11_example :
  show_all showc (cross_correlate_complex xf2 xf1 (Some xt2) (Some xt1) (Some 2%nat) true None) =
  Ok [((-5, 1), (-5, 1)); ((4, 1), (2, 1)); ((2, 1), (6, 1))]%Z /\
  Permutation (combine xf1 xt1) (combine (rev xf1) (rev xt1)).
Proof.
  split; [reflexivity|]. simpl.
  apply perm_trans with ((cz 1 2, 4%Z) :: (cz 0 1, 4%Z) :: (cz 3 (-1), (-1)%Z) :: nil).
  - apply perm_skip, perm_swap.
  - apply (Permutation_cons_append [(cz 0 1, 4%Z); (cz 3 (-1), (-1)%Z)] (cz 1 2, 4%Z)).
Qed.

(* ------------------------------------------------------------------ *)
(** * C12 *)
Theorem C12_default_counts_keep_all_pairs t1 t2 : count_times t1 <> [] -> count_times2 t1 t2 <> [] ->
  (exists c, cross_count t1 t2 None false None = Ok c /\
    list_sum c = (length (count_times t1) * length (count_times2 t1 t2))%nat /\
    (0 < length c)%nat /\ (0 < nth (length c - 1) c 0)%nat) /\
  (exists c, cross_count t1 t2 None true None = Ok c /\
    list_sum c = (length (count_times t1) * length (count_times2 t1 t2))%nat) /\
  (exists c, auto_count t1 None None = Ok c /\
    (2 * list_sum c = length (count_times t1) * (length (count_times t1) + 1))%nat /\
    (0 < length c)%nat /\ (0 < nth (length c - 1) c 0)%nat).
Proof.
  intros H1 H2. split; [|split].
  - exact (@cross_count_default t1 t2 H1 H2).
  - exact (@cross_count_complex_default t1 t2 H1 H2).
  - exact (@auto_count_default t1 H1).
Qed.
Print Assumptions C12_default_counts_keep_all_pairs.
Theorem C12_default_correlations_keep_all_pairs (K : Fld) (f1 f2 : list (Cx K)) t1 t2 aligned :
  valid_cross f1 f2 t1 t2 -> f1 <> [] ->
  exists N, covers (samples f1 t1) (samples f2 t2) N /\
    (exists out, cross_correlate f1 f2 t1 t2 None aligned None = Ok out /\ length out = N /\
       lsum (fmon K) out = Sum (fmon K) (list_prod (samples f1 t1) (samples f2 t2)) (@re_prod K)) /\
    (exists out, cross_correlate_complex f1 f2 t1 t2 None aligned None = Ok out /\ length out = (2 * N - 1)%nat /\
       lsum (cmon K) out = Sum (cmon K) (list_prod (samples f1 t1) (samples f2 t2)) (@cx_prod K)) /\
    (exists out, cross_difference f1 f2 t1 t2 None aligned None = Ok out /\ length out = N /\
       lsum (fmon K) out = Sum (fmon K) (list_prod (samples f1 t1) (samples f2 t2)) (@sq_diff K)).
Proof. apply default_conservation. Qed.
Print Assumptions C12_default_correlations_keep_all_pairs.
Theorem C12_default_auto_correlation_keeps_all_pairs (K : Fld) (f : list (Cx K)) t aligned :
  valid_auto f t -> f <> [] ->
  exists N out, auto_correlate f t None aligned None = Ok out /\ length out = N /\
    covers (samples f t) (samples f t) N /\
    lsum (fmon K) out = Sum (fmon K) (upairs (samples f t)) (@re_prod K).
Proof. apply default_conservation_auto. Qed.
Print Assumptions C12_default_auto_correlation_keeps_all_pairs.
Example C12_example :
  cross_count (TArray xt1) (Some (TArray xt2)) None false None = Ok [1; 4; 0; 0; 1; 2; 1]%nat /\
  auto_count (TScalar 4) None None = Ok [4; 3; 2; 1]%nat.
Proof. split; reflexivity. Qed.

(* ------------------------------------------------------------------ *)
(** * C15 *)
Theorem C15_folding (K : Fld) (f1 f2 : list (Cx K)) t1 t2 n aligned :
  valid_cross f1 f2 t1 t2 -> (0 < n)%nat -> (t1 = None -> aligned = true -> n <= length f1 + 1)%nat ->
  exists z r, cross_correlate_complex f1 f2 t1 t2 (Some n) aligned None = Ok z /\
    cross_correlate f1 f2 t1 t2 (Some n) aligned None = Ok r /\ length r = n /\ length z = (2 * n - 1)%nat /\
    nth 0 r (f0 K) = cre (nth 0 z (c0 K)) /\
    forall k, (1 <= k < n)%nat ->
      nth k r (f0 K) = cre (cadd (nth k z (c0 K)) (nth (length z - k) z (c0 K))).
Proof. exact (@fold_correlate K f1 f2 t1 t2 n aligned). Qed.
Print Assumptions C15_folding.
Theorem C15_folding_counts t1 t2 n : (0 < n)%nat ->
  exists z r, cross_count t1 t2 (Some n) true None = Ok z /\ cross_count t1 t2 (Some n) false None = Ok r /\
    length r = n /\ length z = (2 * n - 1)%nat /\ nth 0 r 0%nat = nth 0 z 0%nat /\
    forall k, (1 <= k < n)%nat -> nth k r 0%nat = (nth k z 0 + nth (length z - k) z 0)%nat.
Proof. apply fold_counts. Qed.
Print Assumptions C15_folding_counts.
Example C15_example :
  show_all show (cross_correlate xf1 xf2 (Some xt1) (Some xt2) (Some 2%nat) true None) = Ok [(-5, 1); (6, 1)]%Z /\
  show_all showc (cross_correlate_complex xf1 xf2 (Some xt1) (Some xt2) (Some 2%nat) true None) =
  Ok [((-5, 1), (5, 1)); ((2, 1), (-6, 1)); ((4, 1), (-2, 1))]%Z.
Proof. split; reflexivity. Qed.

(* ------------------------------------------------------------------ *)
(** * C16 *)
Theorem C16_auto_is_half_of_cross (K : Fld) (f : list (Cx K)) t n aligned :
  valid_auto f t -> distinct (samples f t) -> (t = None -> aligned = true -> n <= length f + 1)%nat ->
  exists a ad c cd,
    auto_correlate f t (Some n) aligned None = Ok a /\ auto_difference f t (Some n) aligned None = Ok ad /\
    cross_correlate f f t t (Some n) aligned None = Ok c /\
    cross_difference f f t t (Some n) aligned None = Ok cd /\
    length a = n /\ length ad = n /\ length c = n /\ length cd = n /\
    forall k, (k < n)%nat ->
      nth k c (f0 K) = (if (k =? 0)%nat then nth k a (f0 K) else fadd K (nth k a (f0 K)) (nth k a (f0 K))) /\
      nth k cd (f0 K) = (if (k =? 0)%nat then nth k ad (f0 K) else fadd K (nth k ad (f0 K)) (nth k ad (f0 K))).
Proof. exact (@auto_half_of_cross K f t n aligned). Qed.
Print Assumptions C16_auto_is_half_of_cross.
Theorem C16_complex (K : Fld) (f : list (Cx K)) t n aligned :
  valid_auto f t -> distinct (samples f t) -> (0 < n)%nat -> (t = None -> aligned = true -> n <= length f + 1)%nat ->
  exists a c, auto_correlate_complex f t (Some n) aligned None = Ok a /\
    cross_correlate_complex f f t t (Some n) aligned None = Ok c /\ a = firstn n c.
Proof. exact (@auto_complex_of_cross K f t n aligned). Qed.
Print Assumptions C16_complex.
Theorem C16_counts t n : NoDup (count_times t) ->
  exists a c, auto_count t (Some n) None = Ok a /\ cross_count t None (Some n) false None = Ok c /\
    length a = n /\ length c = n /\
    forall k, (k < n)%nat -> nth k c 0%nat = (if (k =? 0)%nat then nth k a 0 else 2 * nth k a 0)%nat.
Proof. exact (@auto_count_of_cross t n). Qed.
Print Assumptions C16_counts.
Theorem C16_sums (G : QGrp) (f : list G) t n inv :
  valid_auto f t -> distinct (samples f t) -> (t = None -> n <= length f + 1)%nat ->
  exists a c, auto_sum G f t (Some n) None = Ok a /\ cross_sum G f t t (Some n) false inv None = Ok c /\
    length a = n /\ length c = n /\
    forall k, (k < n)%nat ->
      nth k c (m0 G) = (if (k =? 0)%nat then nth k a (m0 G) else madd G (nth k a (m0 G)) (nth k a (m0 G))).
Proof. exact (@auto_sum_of_cross G f t n inv). Qed.
Print Assumptions C16_sums.
Example C16_example :
  distinct (samples xf1 (Some xt2)) /\
  show_all show (auto_correlate xf1 (Some xt2) (Some 3%nat) true None) = Ok [(16, 1); (0, 1); (1, 1)]%Z /\
  show_all show (cross_correlate xf1 xf1 (Some xt2) (Some xt2) (Some 3%nat) true None) =
    Ok [(16, 1); (0, 1); (2, 1)]%Z.
Proof. split; [repeat constructor; simpl; intuition lia|]. split; reflexivity. Qed.
