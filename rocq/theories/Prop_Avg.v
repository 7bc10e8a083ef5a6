(** C43-C46, C68, C69: the filters of _core_nb.py and avg.py, in every ordered field. *)
From Verif Require Import Base KernelProofs Ordered AvgModel AvgProofs AvgProofs2 Examples.
From Coq Require Import ZifyBool ZifyNat.
Set Implicit Arguments.

Local Notation at_ K l i := (nth i%nat l (f0 K)).

(* ------------------------------------------------------------------ *)
(** * C43: convolve *)
(** Same length, both ends kept, (a[i-1] + 2 a[i] + a[i+1]) / 4 in between, whatever the
    output array held. *)
Theorem C43_values (K : OFld) (a out : list K) : length out = length a -> 2 < length a ->
  exists r, convolve K false a out = Ok r /\ length r = length a /\ at_ K r 0 = at_ K a 0 /\ at_ K r (length a - 1) = at_ K a (length a - 1) /\
    forall i, 0 < i < length a - 1 ->
      at_ K r i = fdiv K (fadd K (fadd K (at_ K a (i - 1)) (fmul K (fnat K 2) (at_ K a i))) (at_ K a (i + 1))) (fnat K 4).
Proof.
  intros HL Hn. exists (map (smooth K a) (seq 0 (length a))). split; [apply convolve_ok; assumption|].
  rewrite map_length, seq_length. split; [reflexivity|]. rewrite !(nth_map_seq (smooth K a)) by lia. repeat split.
  - unfold smooth. replace (length a - 1 =? 0) with false by lia. rewrite Nat.eqb_refl. reflexivity.
  - intros i Hi. rewrite (nth_map_seq (smooth K a)) by lia. unfold smooth. replace (i =? 0) with false by lia. replace (i =? length a - 1) with false by lia. reflexivity.
Qed.
Print Assumptions C43_values.
(** Constant and linear data come back unchanged. *)
Theorem C43_linear (K : OFld) (a out : list K) c d : length out = length a -> 2 < length a ->
  (forall i, i < length a -> at_ K a i = fadd K (fmul K c (fnat K i)) d) -> convolve K false a out = Ok a.
Proof.
  intros HL Hn H. rewrite convolve_ok by assumption. f_equal. apply list_nth_ext with (d := f0 K); rewrite map_length, seq_length; [reflexivity|].
  intros k Hk. rewrite (nth_map_seq (smooth K a)) by exact Hk. apply smooth_linear with (c := c) (d := d); assumption.
Qed.
Print Assumptions C43_linear.
(** The results lie within every interval that contains the data. *)
Theorem C43_range (K : OFld) (a out r : list K) lo hi : convolve K false a out = Ok r -> length out = length a ->
  (forall x, In x a -> fle lo x /\ fle x hi) -> forall x, In x r -> fle lo x /\ fle x hi.
Proof.
  intros E HL H x Hx. destruct (Nat.le_gt_cases (length a) 2) as [C|C]; [rewrite convolve_short in E by lia; discriminate|].
  rewrite convolve_ok in E by (assumption || lia). injection E as <-. apply in_map_iff in Hx. destruct Hx as (i & <- & Hi). apply in_seq in Hi.
  apply smooth_between; [|lia]. intros k Hk. apply H. apply nth_In. exact Hk.
Qed.
Print Assumptions C43_range.
(** Arrays of length two or less are refused. *)
Theorem C43_short (K : OFld) (a out : list K) alias : length out <= 2 -> convolve K alias a out = Raise AssertionError.
Proof. apply convolve_short. Qed.
Print Assumptions C43_short.
(** Run on one array for input and output the kernel reads the neighbour that it has just
    overwritten: every value after the second position uses the new left neighbour. *)
Theorem C43_in_place (K : OFld) (a : list K) : 2 < length a ->
  exists r, convolve K true a a = Ok r /\ at_ K r 0 = at_ K a 0 /\ at_ K r (length a - 1) = at_ K a (length a - 1) /\
    forall i, 0 < i < length a - 1 ->
      at_ K r i = fdiv K (fadd K (fadd K (at_ K r (i - 1)) (fmul K (fnat K 2) (at_ K a i))) (at_ K a (i + 1))) (fnat K 4).
Proof.
  intros Hn. exists (map (smooth_rec K a) (seq 0 (length a))). split; [apply convolve_in_place; assumption|].
  rewrite !(nth_map_seq (smooth_rec K a)) by lia. repeat split; [apply smooth_rec_last; lia|].
  intros i Hi. rewrite !(nth_map_seq (smooth_rec K a)) by lia. destruct i as [|i]; [lia|]. rewrite smooth_rec_S by lia. replace (S i - 1) with i by lia. reflexivity.
Qed.
Print Assumptions C43_in_place.
Theorem C43_in_place_refuted : exists a : list QcO, 2 < length a /\ convolve QcO true a a <> convolve QcO false a a.
Proof. exists [q 0; q 4; q 0; q 0]. split; [cbn; lia|]. intros E. apply (f_equal (show_all show)) in E. vm_compute in E. discriminate. Qed.
Print Assumptions C43_in_place_refuted.
Example C43_holds : show_all show (convolve QcO false [q 1; q 5; q 2; q 8] [q 9; q 9; q 9; q 9]) = Ok [(1, 1); (13, 4); (17, 4); (8, 1)]%Z /\
  show_all show (convolve QcO false [q 1; q 4; q 7; q 10] [q 9; q 9; q 9; q 9]) = Ok [(1, 1); (4, 1); (7, 1); (10, 1)]%Z /\
  show_all show (convolve QcO true [q 1; q 5; q 2; q 8] [q 1; q 5; q 2; q 8]) = Ok [(1, 1); (13, 4); (61, 16); (8, 1)]%Z /\
  convolve QcO false [q 1; q 2] [q 0; q 0] = Raise AssertionError.
Proof. vm_compute. repeat split. Qed.

(* ------------------------------------------------------------------ *)
(** * C44: median *)
(** Every inner value is the middle one of its neighbourhood: the three values are, in some
    order, lo <= middle <= hi.  Also when input and output are one array. *)
Theorem C44_median (K : OFld) alias (a out : list K) : length out = length a -> 2 < length a -> (alias = true -> out = a) ->
  exists r, _median K alias a out = Ok r /\ length r = length a /\ at_ K r 0 = at_ K a 0 /\ at_ K r (length a - 1) = at_ K a (length a - 1) /\
    forall i, 0 < i < length a - 1 -> exists lo hi, Permutation [at_ K a (i - 1); at_ K a i; at_ K a (i + 1)] [lo; at_ K r i; hi] /\ fle lo (at_ K r i) /\ fle (at_ K r i) hi.
Proof.
  intros HL Hn HA. exists (map (med K a) (seq 0 (length a))). split; [apply median_ok; assumption|].
  rewrite map_length, seq_length. split; [reflexivity|]. rewrite !(nth_map_seq (med K a)) by lia. repeat split.
  - unfold med. replace (length a - 1 =? 0) with false by lia. rewrite Nat.eqb_refl. reflexivity.
  - intros i Hi. rewrite (nth_map_seq (med K a)) by lia. unfold med. replace (i =? 0) with false by lia. replace (i =? length a - 1) with false by lia. apply median1_middle.
Qed.
Print Assumptions C44_median.
(** The middle value is unique, so the statement above determines the result. *)
Theorem C44_unique (K : OFld) (a b c m m' lo hi lo' hi' : K) :
  Permutation [a; b; c] [lo; m; hi] -> fle lo m -> fle m hi -> Permutation [a; b; c] [lo'; m'; hi'] -> fle lo' m' -> fle m' hi' -> m = m'.
Proof. intros P1 H1 H2 P2 H3 H4. apply (@middle_unique K a b c m m'); [exists lo, hi|exists lo', hi']; auto. Qed.
Print Assumptions C44_unique.
(** The slow version, which sorts the three values, gives the same array. *)
Theorem C44_same_as_slow (K : OFld) (a out out' : list K) alias : length out = length a -> length out' = length a -> (alias = true -> out = a) ->
  _median K alias a out = _median_slow K a out'.
Proof.
  intros H1 H2 HA. destruct (Nat.le_gt_cases (length a) 2) as [C|C].
  - rewrite median_short by exact C. unfold _median_slow. replace (2 <? length a) with false by lia. reflexivity.
  - rewrite median_ok, median_slow_ok by assumption. reflexivity.
Qed.
Print Assumptions C44_same_as_slow.
(** Monotone data come back unchanged. *)
Theorem C44_monotone (K : OFld) (a out : list K) : length out = length a -> 2 < length a ->
  (forall i, S i < length a -> fle (at_ K a i) (at_ K a (S i))) -> _median K false a out = Ok a.
Proof.
  intros HL Hn H. rewrite median_ok by (assumption || discriminate). f_equal. apply list_nth_ext with (d := f0 K); rewrite map_length, seq_length; [reflexivity|].
  intros k Hk. rewrite (nth_map_seq (med K a)) by exact Hk. apply med_monotone; assumption.
Qed.
Print Assumptions C44_monotone.
Example C44_holds : show_all show (_median QcO false [q 1; q 5; q 2; q 2; q 8; q 0] [q 9; q 9; q 9; q 9; q 9; q 9]) = Ok [(1, 1); (2, 1); (2, 1); (2, 1); (2, 1); (0, 1)]%Z /\
  show_all show (_median QcO true [q 1; q 5; q 3; q 4; q 8; q 0] [q 1; q 5; q 3; q 4; q 8; q 0]) = Ok [(1, 1); (3, 1); (4, 1); (4, 1); (4, 1); (0, 1)]%Z /\
  show_all show (_median_slow QcO [q 1; q 5; q 3; q 4; q 8; q 0] [q 9; q 9; q 9; q 9; q 9; q 9]) = Ok [(1, 1); (3, 1); (4, 1); (4, 1); (4, 1); (0, 1)]%Z /\
  show_all show (_median QcO false [q 1; q 1; q 3; q 8] [q 9; q 9; q 9; q 9]) = Ok [(1, 1); (1, 1); (3, 1); (8, 1)]%Z.
Proof. vm_compute. repeat split. Qed.

(* ------------------------------------------------------------------ *)
(** * C45: decreasing and increasing; None is NaN *)
(** Every value is the least number so far, NaN if there was none; also in place. *)
Theorem C45_decreasing (K : OFld) alias (array out : list (option K)) : length out = length array -> (alias = true -> out = array) ->
  length (decreasing K alias array out) = length array /\
  forall k, k < length array ->
    match nth k (decreasing K alias array out) None with
    | None => forall x, In x (firstn (S k) array) -> x = None
    | Some m => In (Some m) (firstn (S k) array) /\ forall y, In (Some y) (firstn (S k) array) -> fle m y
    end.
Proof. intros H HA. destruct (@decreasing_ok K alias array out H HA) as [H1 H2]. split; [exact H1|exact H2]. Qed.
Print Assumptions C45_decreasing.
(** The first value of increasing is what the output array held, and all others are the
    greatest of that and the data from the second on. *)
Theorem C45_increasing (K : OFld) alias (array out : list (option K)) : length out = length array -> (alias = true -> out = array) ->
  length (increasing K alias array out) = length array /\ nth 0 (increasing K alias array out) None = nth 0 out None /\
  forall k, k < length array ->
    match nth k (increasing K alias array out) None with
    | None => forall x, In x (nth 0 out None :: firstn k (skipn 1 array)) -> x = None
    | Some m => In (Some m) (nth 0 out None :: firstn k (skipn 1 array)) /\ forall y, In (Some y) (nth 0 out None :: firstn k (skipn 1 array)) -> fle y m
    end.
Proof. intros H HA. destruct (@increasing_ok K alias array out H HA) as (H1 & H2 & H3). split; [exact H1|]. split; [exact H2|exact H3]. Qed.
Print Assumptions C45_increasing.
(** In place it is the running maximum of the data. *)
Theorem C45_increasing_in_place (K : OFld) (array : list (option K)) k : k < length array ->
  match nth k (increasing K true array array) None with
  | None => forall x, In x (firstn (S k) array) -> x = None
  | Some m => In (Some m) (firstn (S k) array) /\ forall y, In (Some y) (firstn (S k) array) -> fle y m
  end.
Proof.
  intros Hk. destruct (@increasing_ok K true array array eq_refl (fun _ => eq_refl)) as (_ & _ & H). specialize (H k Hk).
  destruct array as [|x l]; [cbn in Hk; lia|]. exact H.
Qed.
Print Assumptions C45_increasing_in_place.
(** In a fresh array the result is not an upper bound of the data, and depends on what was
    in memory. *)
Theorem C45_increasing_refuted : exists (array out out' : list (option QcO)),
  length out = length array /\ length out' = length array /\ increasing QcO false array out <> increasing QcO false array out' /\
  exists x y, In (Some x) (firstn 2 array) /\ nth 1 (increasing QcO false array out) None = Some y /\ ~ fle x y.
Proof.
  exists [Some (q 5); Some (q 3)], [Some (q 0); Some (q 0)], [Some (q 7); Some (q 0)]. repeat split.
  - intros E. apply (f_equal (map (option_map show))) in E. vm_compute in E. discriminate.
  - exists (q 5), (q 3). split; [cbn; auto|]. split; [reflexivity|]. vm_compute. discriminate.
Qed.
Print Assumptions C45_increasing_refuted.
Example C45_holds : map (option_map show) (decreasing QcO false [None; Some (q 3); Some (q 5); None; Some (q 1); Some (q 2)] (repeat (Some (q 0)) 6)) =
    [None; Some (3, 1); Some (3, 1); Some (3, 1); Some (1, 1); Some (1, 1)]%Z /\
  map (option_map show) (increasing QcO false [Some (q 4); Some (q 3); None; Some (q 5); Some (q 2)] (Some (q 1) :: repeat None 4)) =
    [Some (1, 1); Some (3, 1); Some (3, 1); Some (5, 1); Some (5, 1)]%Z /\
  map (option_map show) (increasing QcO true [Some (q 4); Some (q 3); Some (q 5)] [Some (q 4); Some (q 3); Some (q 5)]) = [Some (4, 1); Some (4, 1); Some (5, 1)]%Z.
Proof. vm_compute. repeat split. Qed.

(* ------------------------------------------------------------------ *)
(** * C46: interpolate *)
Definition rising (K : OFld) (x : list K) : Prop := forall i j, i < j < length x -> flt K (at_ K x i) (at_ K x j) = true.
(** Data a*x + b give a*x + b at every point, also outside the nodes. *)
Theorem C46_linear (K : OFld) (x_new x y out : list K) a b : 2 <= length x -> length y = length x -> length out = length x_new -> rising K x ->
  (forall k, k < length x -> at_ K y k = fadd K (fmul K a (at_ K x k)) b) ->
  interpolate K x_new x y out = Ok (map (fun t => fadd K (fmul K a t) b) x_new).
Proof.
  intros Hx Hy HO HI HD. unfold interpolate. replace (2 <=? length x) with true by lia. cbn [negb]. f_equal.
  revert out HO. induction x_new as [|t l IH]; intros [|o out] HO; cbn in HO; try discriminate; [reflexivity|]. cbn [combine map fst snd].
  f_equal; [|apply IH; lia]. destruct (@interpolate1_segment K x y t o Hx Hy) as (j & Hj & E & _). rewrite E. apply segment_linear; assumption.
Qed.
Print Assumptions C46_linear.
(** The stored values at the nodes. *)
Theorem C46_nodes (K : OFld) (x y out : list K) : 2 <= length x -> length y = length x -> length out = length x -> rising K x ->
  interpolate K x x y out = Ok y.
Proof.
  intros Hx Hy HO HI. unfold interpolate. replace (2 <=? length x) with true by lia. cbn [negb]. f_equal.
  apply list_nth_ext with (d := f0 K); rewrite map_length, combine_length, HO, Nat.min_id; [symmetry; exact Hy|]. intros k Hk.
  rewrite nth_indep with (d' := (fun p => interpolate1 K x y (fst p) (snd p)) (f0 K, f0 K)) by (rewrite map_length, combine_length, HO, Nat.min_id; exact Hk).
  rewrite (map_nth (fun p => interpolate1 K x y (fst p) (snd p))). rewrite combine_nth by (symmetry; exact HO). cbn [fst snd]. apply interpolate1_node; assumption.
Qed.
Print Assumptions C46_nodes.
(** Between two neighbouring nodes the value lies between the two stored values. *)
Theorem C46_between (K : OFld) (x y : list K) t o k lo hi : 2 <= length x -> length y = length x -> rising K x -> 1 <= k < length x ->
  fle (at_ K x (k - 1)) t -> fle t (at_ K x k) -> fle lo (at_ K y (k - 1)) -> fle lo (at_ K y k) -> fle (at_ K y (k - 1)) hi -> fle (at_ K y k) hi ->
  exists v, interpolate K [t] x y [o] = Ok [v] /\ fle lo v /\ fle v hi.
Proof.
  intros Hx Hy HI Hk X1 X2 Y1 Y2 Y3 Y4. exists (interpolate1 K x y t o). split; [unfold interpolate; replace (2 <=? length x) with true by lia; reflexivity|].
  apply interpolate1_between with (k := k); assumption.
Qed.
Print Assumptions C46_between.
Theorem C46_short (K : OFld) (x_new x y out : list K) : length x < 2 -> interpolate K x_new x y out = Raise AssertionError.
Proof. intros H. unfold interpolate. replace (2 <=? length x) with false by lia. reflexivity. Qed.
Print Assumptions C46_short.
Example C46_holds : show_all show (interpolate QcO [q 0; q 1; q 2; q 3; q 9; q 12] [q 1; q 3; q 9] [q 10; q 20; q (-40)] (repeat (q 7) 6)) =
    Ok [(5, 1); (10, 1); (15, 1); (20, 1); (-40, 1); (-70, 1)]%Z /\
  show_all show (interpolate QcO [q (-4); q 2; q 12] [q 1; q 3; q 9] [q 5; q 11; q 29] (repeat (q 7) 3)) = Ok [(-10, 1); (8, 1); (38, 1)]%Z.
Proof. vm_compute. repeat split. Qed.

(* ------------------------------------------------------------------ *)
(** * C68: log_interpolate.  [ln] stands for the logarithm: increasing from 1 on, below the
    identity. *)
Definition rising_times (x : list Z) : Prop := (0 <= nth 0 x 0)%Z /\ forall i j, i < j < length x -> (nth i x 0 < nth j x 0)%Z.
Definition log_like (K : OFld) (ln ofZ : Z -> K) : Prop :=
  (forall a b, (1 <= a < b)%Z -> flt K (ln a) (ln b) = true) /\ (forall a b, (a < b)%Z -> flt K (ofZ a) (ofZ b) = true) /\ forall a, (1 <= a)%Z -> fle (ln a) (ofZ a).
(** The stored values at the nodes, unless the first node is 0 and the second above 1. *)
Theorem C68_nodes (K : OFld) ln ofZ (x : list Z) (y out : list K) : log_like K ln ofZ -> 2 <= length x -> length y = length x -> length out = length x -> rising_times x ->
  ((1 <= nth 0 x 0)%Z \/ nth 1 x 0%Z = 1%Z) -> _log_interpolate K ln ofZ x x y out = Ok y.
Proof.
  intros (L1 & L2 & L3) Hx Hy HO HI HC. unfold _log_interpolate. replace (2 <=? length x) with true by lia. cbn [negb]. f_equal.
  apply list_nth_ext with (d := f0 K); rewrite map_length, combine_length, HO, Nat.min_id; [symmetry; exact Hy|]. intros k Hk.
  rewrite nth_indep with (d' := (fun p => log_interpolate1 K ln ofZ x y (fst p) (snd p)) (0%Z, f0 K)) by (rewrite map_length, combine_length, HO, Nat.min_id; exact Hk).
  rewrite (map_nth (fun p => log_interpolate1 K ln ofZ x y (fst p) (snd p))). rewrite combine_nth by (symmetry; exact HO). cbn [fst snd]. apply log_interpolate1_node; assumption.
Qed.
Print Assumptions C68_nodes.
(** Data a*ln(x) + b give a*ln(t) + b for every t > 1, if the nodes start at 1 or later. *)
Theorem C68_linear (K : OFld) ln ofZ (x_new x : list Z) (y out : list K) a b : log_like K ln ofZ -> 2 <= length x -> length y = length x -> length out = length x_new -> rising_times x ->
  (1 <= nth 0 x 0)%Z -> (forall t, In t x_new -> (1 < t)%Z) -> (forall k, k < length x -> at_ K y k = fadd K (fmul K a (ln (nth k x 0%Z))) b) ->
  _log_interpolate K ln ofZ x_new x y out = Ok (map (fun t => fadd K (fmul K a (ln t)) b) x_new).
Proof.
  intros (L1 & L2 & L3) Hx Hy HO HI H1 Ht HD. unfold _log_interpolate. replace (2 <=? length x) with true by lia. cbn [negb]. f_equal.
  revert out HO Ht. induction x_new as [|t l IH]; intros [|o out] HO Ht; cbn in HO; try discriminate; [reflexivity|]. cbn [combine map fst snd].
  f_equal; [|apply IH; [lia|intros; apply Ht; right; assumption]]. apply log_interpolate1_linear; try assumption. apply Ht. left. reflexivity.
Qed.
Print Assumptions C68_linear.
(** A first node 0 followed by a node above 1: the query is a logarithm, the nodes are not,
    and the second node does not get its stored value. *)
Section Mixed.
Variable K : OFld.
Add Field K68 : (flaw K).
Lemma mixed_nodes ln ofZ (x1 : Z) (y0 y1 o : K) : log_like K ln ofZ -> ofZ 0%Z = f0 K -> (1 < x1)%Z -> flt K (ln x1) (ofZ x1) = true -> y0 <> y1 ->
  exists v, _log_interpolate K ln ofZ [x1] [0%Z; x1] [y0; y1] [o] = Ok [v] /\ v <> y1.
Proof.
  intros (L1 & L2 & L3) Z0 Hx HL HY. eexists. split; [reflexivity|]. unfold log_interpolate1. cbn [fst snd]. replace (1 <? x1)%Z with true by lia. cbn [length Nat.sub seq log_loop nth].
  unfold log_nodes. replace (1 <=? 0)%Z with false by lia. cbn [andb]. rewrite Z.leb_refl. rewrite (flt_asym K _ _ HL). rewrite Z0.
  assert (X0 : ofZ x1 <> f0 K) by (intros E; pose proof (L2 0%Z x1 ltac:(lia)) as F; rewrite Z0, E, flt_irrefl in F; discriminate).
  intros E. assert (E2 : fmul K (fsub K (ln x1) (ofZ x1)) (fsub K y1 y0) = f0 K).
  { transitivity (fmul K (ofZ x1) (fsub K (fadd K (fdiv K (fmul K (fsub K (ln x1) (f0 K)) (fsub K y1 y0)) (fsub K (ofZ x1) (f0 K))) y0) y1)).
    - revert X0. generalize (ln x1) (ofZ x1). intros u w X0. field. intros C. apply X0. rewrite <- C. ring.
    - rewrite E. ring. }
  assert (N1 : fsub K (ln x1) (ofZ x1) <> f0 K) by (intros C; apply (@flt_neq K _ _ HL); transitivity (fadd K (fsub K (ln x1) (ofZ x1)) (ofZ x1)); [ring|rewrite C; ring]).
  apply HY. transitivity (fsub K y1 (fdiv K (fmul K (fsub K (ln x1) (ofZ x1)) (fsub K y1 y0)) (fsub K (ln x1) (ofZ x1)))).
  - revert N1. generalize (fsub K (ln x1) (ofZ x1)). intros u N1. field. exact N1.
  - rewrite E2. revert N1. generalize (fsub K (ln x1) (ofZ x1)). intros u N1. field. exact N1.
Qed.
End Mixed.
Theorem C68_mixed_refuted (K : OFld) ln ofZ (x1 : Z) (y0 y1 o : K) : log_like K ln ofZ -> ofZ 0%Z = f0 K -> (1 < x1)%Z -> flt K (ln x1) (ofZ x1) = true -> y0 <> y1 ->
  exists v, _log_interpolate K ln ofZ [x1] [0%Z; x1] [y0; y1] [o] = Ok [v] /\ v <> y1.
Proof. apply mixed_nodes. Qed.
Print Assumptions C68_mixed_refuted.
(** With the nodes 0 and 1 nothing is written for a later time whose logarithm is below 1. *)
Theorem C68_unwritten_refuted (K : OFld) ln ofZ (t : Z) (y0 y1 o : K) : (1 < t)%Z -> flt K (ofZ 1%Z) (ln t) = false ->
  _log_interpolate K ln ofZ [t] [0%Z; 1%Z] [y0; y1] [o] = Ok [o].
Proof.
  intros Ht HL. unfold _log_interpolate. cbn -[flt Z.leb log_interpolate1]. do 2 f_equal. unfold log_interpolate1. replace (1 <? t)%Z with true by lia. cbn [length Nat.sub seq log_loop nth].
  unfold log_nodes. replace (1 <=? 0)%Z with false by lia. cbn [andb]. replace (t <=? 1)%Z with false by lia. rewrite HL. reflexivity.
Qed.
Print Assumptions C68_unwritten_refuted.
(** An increasing function below the identity in place of the logarithm: 1 - 1/t *)
Definition ln_q (t : Z) : QcO := fsub QcF (q 1) (fdiv QcF (q 1) (q t)).
Example C68_holds : show_all show (_log_interpolate QcO ln_q q [0; 1; 2; 4; 3; 9]%Z [0; 1; 2; 4]%Z [q 5; q 7; q 1; q 3] (repeat (q 7) 6)) = Ok [(5, 1); (7, 1); (1, 1); (3, 1); (7, 3); (37, 9)]%Z /\
  show_all show (_log_interpolate QcO ln_q q [4]%Z [0; 4]%Z [q 0; q 16] [q 7]) = Ok [(3, 1)]%Z /\
  show_all show (_log_interpolate QcO ln_q q [2]%Z [0; 1]%Z [q 0; q 16] [q 7]) = Ok [(7, 1)]%Z.
Proof. vm_compute. repeat split. Qed.

(* ------------------------------------------------------------------ *)
(** * C69: denoise *)
(** Any number of passes on three or more values succeeds, keeps the length and stays within
    every interval containing the data; the content of the arrays that are allocated does not
    matter. *)
Theorem C69_range (K : OFld) junk junk' n (x : list K) lo hi : 2 < length x -> (forall y, In y x -> fle lo y /\ fle y hi) ->
  exists r, denoise K junk n x = Ok r /\ denoise K junk' n x = Ok r /\ length r = length x /\ forall y, In y r -> fle lo y /\ fle y hi.
Proof.
  intros Hx H. exists (passes K n x). rewrite !denoise_ok by exact Hx. repeat split; try apply passes_length; apply (@passes_between K n lo hi x H); assumption.
Qed.
Print Assumptions C69_range.
(** The first and the last value stay. *)
Theorem C69_ends (K : OFld) junk n (x r : list K) : denoise K junk n x = Ok r -> nth 0 r (f0 K) = nth 0 x (f0 K) /\ nth (length x - 1) r (f0 K) = nth (length x - 1) x (f0 K).
Proof.
  intros H. destruct (Nat.le_gt_cases (length x) 2) as [C|C].
  - rewrite denoise_short in H by exact C. destruct n; [injection H as <-; split; reflexivity|discriminate].
  - rewrite denoise_ok in H by exact C. injection H as <-. apply passes_ends.
Qed.
Print Assumptions C69_ends.
(** denoise commutes with every map u*x + v, also with negative u. *)
Theorem C69_affine (K : OFld) junk n (x : list K) u v :
  denoise K junk n (map (fun y => fadd K (fmul K u y) v) x) = (let* r := denoise K junk n x in Ok (map (fun y => fadd K (fmul K u y) v) r)).
Proof.
  destruct (Nat.le_gt_cases (length x) 2) as [C|C].
  - rewrite !denoise_short by (rewrite ?map_length; exact C). destruct n; reflexivity.
  - rewrite !denoise_ok by (rewrite ?map_length; exact C). cbn [bind]. rewrite passes_affine. reflexivity.
Qed.
Print Assumptions C69_affine.
Theorem C69_short (K : OFld) junk n (x : list K) : length x <= 2 -> 0 < n -> denoise K junk n x = Raise AssertionError.
Proof. intros H Hn. rewrite denoise_short by exact H. destruct n; [lia|reflexivity]. Qed.
Print Assumptions C69_short.
Example C69_holds : show_all show (denoise QcO (fun _ _ => q 7) 1 [q 0; q 8; q 4; q 4; q 12]) = Ok [(0, 1); (3, 1); (4, 1); (6, 1); (12, 1)]%Z /\
  show_all show (denoise QcO (fun _ _ => q 0) 1 (map (fun y => fadd QcF (fmul QcF (q (-2)) y) (q 1)) [q 0; q 8; q 4; q 4; q 12])) = Ok [(1, 1); (-5, 1); (-7, 1); (-11, 1); (-23, 1)]%Z /\
  denoise QcO (fun _ _ => q 7) 3 [q 1; q 2] = Raise AssertionError.
Proof. vm_compute. repeat split. Qed.
