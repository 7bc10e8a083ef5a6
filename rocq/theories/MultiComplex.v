(** Complex multiple-tau data: what the arrays of one level hold. *)
From Verif Require Import Base PairSpec Kernels KernelProofs RegularProofs CoreModel CoreProofs CoreProofs2 CoreProofs3 CoreApi FftModel NormModel CorrModel MultiModel FftProofs Prop_Fft.
From Coq Require Import String ZifyBool ZifyNat.
Open Scope string_scope.
Open Scope nat_scope.
Local Notation length := List.length.
Set Implicit Arguments.
Ltac Zify.zify_post_hook ::= Z.div_mod_to_equations.

(** ** Counting into an array of any length *)
Definition half_cell (len i : nat) (d : Z) : bool := ((2 * Z.abs d <? Z.of_nat len + 1) && ((d =? Z.of_nat i) || ((d =? Z.of_nat i - Z.of_nat len) && (d <? 0))))%Z%bool.
Lemma scatter_half_length (M : CMon) out d v : length (scatter_signed_half M out d v) = length out.
Proof. unfold scatter_signed_half. destruct (_ <? _)%Z; [apply add_at_length|reflexivity]. Qed.
Lemma fold_scatter_half (E : Type) (d : E -> Z) l out i : i < length out ->
  nth i (fold_left (fun o e => scatter_signed_half natmon o (d e) 1) l out) 0 = nth i out 0 + length (filter (fun e => half_cell (length out) i (d e)) l).
Proof.
  revert out. induction l as [|e l IH]; intros out Hi; cbn [fold_left filter]; [cbn; lia|].
  rewrite IH by (rewrite scatter_half_length; exact Hi). rewrite scatter_half_length.
  assert (E1 : nth i (scatter_signed_half natmon out (d e) 1) 0 = nth i out 0 + (if half_cell (length out) i (d e) then 1 else 0)).
  { unfold scatter_signed_half, half_cell. destruct (Z.ltb_spec (2 * Z.abs (d e)) (Z.of_nat (length out) + 1)) as [H|H]; cbn [andb].
    - assert (P : wrap_pos (length out) (d e) < length out) by (unfold wrap_pos; destruct (Z.ltb_spec (d e) 0); lia).
      etransitivity; [exact (@nth_add_at natmon out _ i 1 P)|]. cbn [madd m0 natmon].
      destruct (Nat.eqb_spec i (wrap_pos (length out) (d e))) as [Ei|Ni].
      + replace ((d e =? Z.of_nat i) || (d e =? Z.of_nat i - Z.of_nat (length out)) && (d e <? 0))%Z%bool with true; [reflexivity|].
        unfold wrap_pos in Ei. destruct (Z.ltb_spec (d e) 0); lia.
      + replace ((d e =? Z.of_nat i) || (d e =? Z.of_nat i - Z.of_nat (length out)) && (d e <? 0))%Z%bool with false; [lia|].
        unfold wrap_pos in Ni. destruct (Z.ltb_spec (d e) 0); lia.
    - lia. }
  rewrite E1. destruct (half_cell (length out) i (d e)); cbn [List.length]; lia.
Qed.
Lemma fold_scatter_half_length (E : Type) (d : E -> Z) l out :
  length (fold_left (fun o e => scatter_signed_half natmon o (d e) 1) l out) = length out.
Proof. revert out. induction l as [|e l IH]; intros out; [reflexivity|]. cbn [fold_left]. rewrite IH. apply scatter_half_length. Qed.
Lemma count_half t1 t2 out :
  _add_count_cross_complex t1 t2 out = fold_left (fun o (p : sample unit * sample unit) => scatter_signed_half natmon o (delay p) 1) (list_prod (times t1) (times t2)) out.
Proof.
  unfold _add_count_cross_complex.
  pose (body := fun (a b : sample unit) (o : list nat) => scatter_signed_half natmon o (snd b - snd a)%Z 1).
  transitivity (for_range 0 (length (times t1)) (fun i s => for_range 0 (length (times t2)) (fun j s => body (nth i (times t1) (tt, 0%Z)) (nth j (times t2) (tt, 0%Z)) s) s) out).
  - rewrite !times_length. apply for_range_ext; intros i s _; apply for_range_ext; intros j s' _. rewrite !nth_times. reflexivity.
  - rewrite nested_cross. reflexivity.
Qed.
(** Pairs of regular data *)
Lemma times_regular len : times (arange len) = regular (repeat tt len).
Proof.
  unfold times, regular. rewrite repeat_length. apply (@list_nth_ext _ _ _ (tt, 0%Z)).
  - rewrite map_length, combine_length, repeat_length, arange_length. lia.
  - intros i Hi. rewrite map_length, arange_length in Hi. rewrite nth_sample by (rewrite repeat_length, arange_length; reflexivity).
    rewrite (map_nth (pair tt) (arange len) 0%Z i). destruct (nth i (repeat tt len) tt). reflexivity.
Qed.
Lemma pairs_count_signed len (d : Z) : (Z.abs d <= Z.of_nat len)%Z -> length (pairs_signed d (times (arange len)) (times (arange len))) = len - Z.to_nat (Z.abs d).
Proof.
  intros Hd. rewrite times_regular. assert (E : forall l : list (sample unit * sample unit), length l = Sum natmon l (fun _ => 1)) by (intros l; symmetry; apply Sum_nat_1).
  rewrite E. destruct (Z.leb_spec 0 d) as [P|P].
  - replace d with (Z.of_nat (Z.to_nat d)) at 1 by lia. rewrite (@regular_pairs_pos natmon unit unit _ _ tt tt) by reflexivity.
    rewrite (Sum_nat_1 _), seq_length, repeat_length. lia.
  - replace d with (- Z.of_nat (Z.to_nat (- d)))%Z at 1 by lia. rewrite (@regular_pairs_neg natmon unit unit _ _ tt tt) by reflexivity.
    rewrite (Sum_nat_1 _), seq_length, repeat_length. lia.
Qed.
Lemma filter_or_length (A : Type) (p q : A -> bool) l : (forall x, p x = true -> q x = true -> False) ->
  length (filter (fun x => p x || q x) l) = length (filter p l) + length (filter q l).
Proof.
  intros H. induction l as [|x l IH]; [reflexivity|]. cbn [filter]. specialize (H x). destruct (p x), (q x); cbn [orb List.length]; try lia; exfalso; auto.
Qed.
(** The count of a level: delays i and i - n share position i, and only delays up to n/2 are counted. *)
Definition half_count (n len i : nat) : nat := (if 2 * i <=? n then len - i else 0) + (if (1 <=? i) && (n <=? 2 * i) then len - (n - i) else 0).
Lemma half_count_ok n len i : i < n -> n <= len ->
  length (filter (fun p : sample unit * sample unit => half_cell n i (delay p)) (list_prod (times (arange len)) (times (arange len)))) = half_count n len i.
Proof.
  intros Hi Hn. unfold half_count.
  rewrite (@filter_ext _ _ (fun p : sample unit * sample unit => ((2 * i <=? n) && (delay p =? Z.of_nat i)%Z) || (((1 <=? i) && (n <=? 2 * i)) && (delay p =? Z.of_nat i - Z.of_nat n)%Z))).
  2:{ intros p. unfold half_cell. generalize (delay p). intros d. destruct (Z.eqb_spec d (Z.of_nat i)), (Z.eqb_spec d (Z.of_nat i - Z.of_nat n)); cbn [andb orb]; lia. }
  rewrite filter_or_length by (intros p H1 H2; lia).
  assert (F : forall (c : bool) (z : Z), (Z.abs z <= Z.of_nat len)%Z -> length (filter (fun p : sample unit * sample unit => c && (delay p =? z)%Z) (list_prod (times (arange len)) (times (arange len)))) = if c then len - Z.to_nat (Z.abs z) else 0).
  { intros c z Hz. destruct c; cbn [andb].
    - apply pairs_count_signed. exact Hz.
    - induction (list_prod _ _) as [|x l IH]; [reflexivity|exact IH]. }
  rewrite !F by lia. f_equal; [destruct (2 * i <=? n); lia|]. destruct ((1 <=? i) && (n <=? 2 * i))%bool; lia.
Qed.
Lemma level_count n len : n <= len ->
  cross_count (TArray (arange len)) (Some (TArray (arange len))) (Some n) true (Some (repeat 0 n)) = Ok (map (half_count n len) (seq 0 n)).
Proof.
  intros Hn. unfold cross_count. cbn [targ_times _default_count bind]. f_equal. rewrite count_half. apply (@list_nth_ext _ _ _ 0).
  - rewrite fold_scatter_half_length, repeat_length, map_length, seq_length. reflexivity.
  - intros i Hi. rewrite fold_scatter_half_length, repeat_length in Hi. rewrite fold_scatter_half by (rewrite repeat_length; exact Hi).
    rewrite repeat_length. rewrite nth_map_seq by exact Hi. rewrite half_count_ok by assumption. rewrite nth_repeat. reflexivity.
Qed.

(** ** One level of ccorr_multi with complex output *)
Lemma level_sum (G : QGrp) (f : list G) n inv prev : n <= length f -> length prev = 2 * n + 1 ->
  exists out, cross_sum G f None None (Some n) true inv (Some prev) = Ok out /\ length out = 2 * n + 1.
Proof.
  intros Hn HL. eexists. split; [apply (@cross_sum_complex_aout G f None None (Some n) inv prev (n + 1))|].
  - exact Logic.I.
  - rewrite HL. lia.
  - lia.
  - intros _. lia.
  - rewrite plus_cells_length. exact HL.
Qed.
Lemma has_length A (x : option (list A)) (y : list A) n : length y = n -> (match x with Some s => length s = n | None => True end) -> length (match x with Some s => s | None => y end) = n.
Proof. destruct x; auto. Qed.
Section Level.
  Variable K : Fld.
  Variable W : nat -> Cx K.
  Lemma level_correlation (f1 f2 : list (Cx K)) n aligned m :
    length f1 = length f2 -> 0 < n -> n <= length f1 -> m = "corr" \/ m = "fft" /\ is_root (length f1 * 2) (W (length f1 * 2)) ->
    (if String.eqb m "fft" then cross_correlate_fft_complex W else if String.eqb m "corr" then (fun f1 f2 t1 t2 n aout => cross_correlate_complex f1 f2 t1 t2 n aligned aout) else (fun _ _ _ _ _ _ => Raise ValueError))
      f1 f2 None None (Some n) (Some (repeat (c0 K) (n * 2 + 1))) =
    Ok (map (fun i => corr_complex_spec (regular f1) (regular f2) (lag_at (n + 1) i)) (seq 0 (2 * n + 1))).
  Proof.
    intros HL H0 Hn HM.
    assert (D : cross_correlate_complex f1 f2 None None (Some n) aligned (Some (repeat (c0 K) (n * 2 + 1))) =
                Ok (map (fun i => corr_complex_spec (regular f1) (regular f2) (lag_at (n + 1) i)) (seq 0 (2 * n + 1)))).
    { etransitivity; [apply (@cross_correlate_complex_aout K f1 f2 None None (Some n) aligned _ (n + 1))|].
      - split; [exact HL|exact Logic.I].
      - rewrite repeat_length. lia.
      - lia.
      - intros _ _. lia.
      - f_equal. replace (n * 2 + 1) with (2 * n + 1) by lia. exact (plus_cells_zero (cmon K) (2 * n + 1) _). }
    destruct HM as [->|[-> HR]]; cbn [String.eqb Ascii.eqb Bool.eqb]; [exact D|].
    assert (Hne : f1 <> []) by (intros ->; cbn in Hn; lia).
    etransitivity; [apply (@C13_cross_correlate_fft_complex K W f1 f2 None None (length f1) (Some n) aligned (Some (repeat (c0 K) (n * 2 + 1))) (n + 1))|exact D].
    - split; [exact HL|exact Logic.I].
    - exact Hne.
    - apply regular_distinct.
    - apply regular_distinct.
    - apply covers_regular; assumption.
    - exact HR.
    - unfold output_length. rewrite repeat_length. lia.
    - lia.
  Qed.
  Lemma level_row (f1 f2 : list (Cx K)) n aligned m nm (s1 s2 : option (list K)) :
    length f1 = length f2 -> 0 < n -> n <= length f1 -> m = "corr" \/ m = "fft" /\ is_root (length f1 * 2) (W (length f1 * 2)) ->
    _default_norm (Some nm) m true = Ok nm ->
    (match s1 with Some s => length s = length f1 | None => True end) -> (match s2 with Some s => length s = length f1 | None => True end) ->
    exists sq d1 d2,
      ccorr_complex W aligned f1 f2 None None (Some n) (Some nm) (Some m) s1 s2 (Some (slow_row K (c0 K) true true true nm n)) =
      Ok (DCorr (map (fun i => corr_complex_spec (regular f1) (regular f2) (lag_at (n + 1) i)) (seq 0 (2 * n + 1))) (map (half_count n (length f1)) (seq 0 n)) sq d1 d2) /\
      (match sq with Some l => length l = 2 * n + 1 | None => has_flag nm NORM_STRUCTURED = false end) /\
      (match d1, d2 with Some l1, Some l2 => length l1 = 2 * n + 1 /\ length l2 = 2 * n + 1 | None, None => has_flag nm NORM_SUBTRACTED = false | _, _ => False end).
  Proof.
    intros HL H0 Hn HM HN HS1 HS2. unfold ccorr_complex, ccorr_gen.
    assert (Em : _default_method (Some m) (Some n) = Ok m) by (destruct HM as [->|[-> _]]; reflexivity). rewrite Em. cbn [bind]. rewrite HN. cbn [bind].
    assert (Ed : String.eqb m "diff" = false) by (destruct HM as [->|[-> _]]; reflexivity). rewrite Ed. cbn [andb negb].
    unfold slow_row. cbn [unpack_aout bind]. unfold _inspect_cross_arguments. cbn [bind option_map]. rewrite <- HL, Nat.eqb_refl. cbn [negb bind option_map].
    pose proof (@level_correlation f1 f2 n aligned m HL H0 Hn HM) as LC. rewrite LC. cbn [bind]. rewrite level_count by exact Hn. cbn [bind given]. rewrite andb_false_r.
    assert (LA : forall f : list (Cx K), length (abs2 f) = length f) by (intros f; apply map_length).
    set (r1 := match s1 with Some s => s | None => abs2 f1 end). set (r2 := match s2 with Some s => s | None => abs2 f2 end).
    assert (R1 : length r1 = length f1) by (apply has_length; [apply LA|exact HS1]).
    assert (R2 : length r2 = length f1) by (apply has_length; [rewrite LA; auto|exact HS2]).
    rewrite andb_true_r.
    assert (SQ : exists sq, (if has_flag nm NORM_STRUCTURED then
        let* sq := cross_sum (fgrp K) r1 None None (Some n) true false (Some (repeat (f0 K) (n * 2 + 1))) in
        let* sq := cross_sum (fgrp K) r2 None None (Some n) true true (Some sq) in Ok (Some sq) else Ok None) = Ok sq /\
      match sq with Some l => length l = 2 * n + 1 | None => has_flag nm NORM_STRUCTURED = false end).
    { destruct (has_flag nm NORM_STRUCTURED); [|exists None; split; reflexivity].
      destruct (@level_sum (fgrp K) r1 n false (repeat (f0 K) (n * 2 + 1))) as (o1 & E1 & L1); [exact (eq_ind_r (fun x => n <= x) Hn R1)|rewrite repeat_length; lia|].
      destruct (@level_sum (fgrp K) r2 n true o1) as (o2 & E2 & L2); [exact (eq_ind_r (fun x => n <= x) Hn R2)|exact L1|].
      exists (Some o2). split; [|exact L2]. refine (eq_trans (f_equal (fun x => bind x _) E1) _). cbn [bind]. exact (f_equal (fun x => bind x _) E2). }
    destruct SQ as (sq & SQ & SL).
    assert (SQ' : (if has_flag nm NORM_STRUCTURED then
        let* sq := cross_sum (fgrp K) r1 None None (Some n) true false (if has_flag nm NORM_STRUCTURED then Some (repeat (f0 K) (n * 2 + 1)) else None) in
        let* sq := cross_sum (fgrp K) r2 None None (Some n) true true (Some sq) in Ok (Some sq)
        else Ok (if has_flag nm NORM_STRUCTURED then Some (repeat (f0 K) (n * 2 + 1)) else None)) = Ok sq) by (destruct (has_flag nm NORM_STRUCTURED); exact SQ).
    assert (SD : exists d1 d2, (if has_flag nm NORM_SUBTRACTED then
        let* ds1 := cross_sum (cgrp K) f1 None None (Some n) true false (Some (repeat (c0 K) (n * 2 + 1))) in
        let* ds2 := cross_sum (cgrp K) f2 None None (Some n) true true (Some (repeat (c0 K) (n * 2 + 1))) in Ok (Some ds1, Some ds2) else Ok (None, None)) = Ok (d1, d2) /\
      match d1, d2 with Some l1, Some l2 => length l1 = 2 * n + 1 /\ length l2 = 2 * n + 1 | None, None => has_flag nm NORM_SUBTRACTED = false | _, _ => False end).
    { destruct (has_flag nm NORM_SUBTRACTED); [|exists None, None; split; reflexivity].
      destruct (@level_sum (cgrp K) f1 n false (repeat (c0 K) (n * 2 + 1))) as (o1 & E1 & L1); [exact Hn|rewrite repeat_length; lia|].
      destruct (@level_sum (cgrp K) f2 n true (repeat (c0 K) (n * 2 + 1))) as (o2 & E2 & L2); [exact (eq_ind (length f1) (fun x => n <= x) Hn _ HL)|rewrite repeat_length; lia|].
      exists (Some o1), (Some o2). split; [|split; assumption]. refine (eq_trans (f_equal (fun x => bind x _) E1) _). cbn [bind]. exact (f_equal (fun x => bind x _) E2). }
    destruct SD as (d1 & d2 & SD & DL). exists sq, d1, d2. split; [|split; assumption].
    assert (SD' : (if has_flag nm NORM_SUBTRACTED then
        let* ds1 := cross_sum (cgrp K) f1 None None (Some n) true false (if has_flag nm NORM_SUBTRACTED then Some (repeat (c0 K) (n * 2 + 1)) else None) in
        let* ds2 := cross_sum (cgrp K) f2 None None (Some n) true true (if has_flag nm NORM_SUBTRACTED then Some (repeat (c0 K) (n * 2 + 1)) else None) in Ok (Some ds1, Some ds2)
        else Ok ((if has_flag nm NORM_SUBTRACTED then Some (repeat (c0 K) (n * 2 + 1)) else None), (if has_flag nm NORM_SUBTRACTED then Some (repeat (c0 K) (n * 2 + 1)) else None))) = Ok (d1, d2)) by (destruct (has_flag nm NORM_SUBTRACTED); exact SD).
    cbv zeta. refine (eq_trans (f_equal (fun x => bind x _) SQ') _). cbn [bind].
    exact (f_equal (fun x => bind x _) SD').
  Qed.
End Level.

(** ** Loops that end with an exception *)
Lemma range_raise S (b k : nat) (body : nat -> S -> res S) (P : S -> Prop) s e : k < b -> P s ->
  (forall i s, i < k -> P s -> exists s', body i s = Ok s' /\ P s') -> (forall s, P s -> body k s = Raise e) -> for_range_res 0 b body s = Raise e.
Proof.
  intros Hk HP Hok Hbad. unfold for_range_res. rewrite Nat.sub_0_r. replace b with (k + (1 + (b - k - 1))) by lia. rewrite seq_app, fold_left_app. cbn [seq fold_left Nat.add].
  assert (R : forall l, fold_left (fun r i => let* s := r in body i s) l (Raise e) = Raise e) by (induction l as [|x l IH]; [reflexivity|exact IH]).
  assert (A : forall j, j <= k -> exists s', fold_left (fun r i => let* s := r in body i s) (seq 0 j) (Ok s) = Ok s' /\ P s').
  { induction j as [|j IH]; intros Hj; [exists s; split; [reflexivity|exact HP]|].
    destruct IH as (s1 & E & HP1); [lia|]. rewrite seq_S, fold_left_app, E. cbn [fold_left bind Nat.add]. apply Hok; [lia|exact HP1]. }
  destruct (A k (le_n k)) as (s' & E & HP'). rewrite E. cbn [bind]. rewrite (Hbad _ HP'). apply R.
Qed.
Lemma range_ok S (b : nat) (body : nat -> S -> res S) (P : S -> Prop) s : P s ->
  (forall i s, i < b -> P s -> exists s', body i s = Ok s' /\ P s') -> exists s', for_range_res 0 b body s = Ok s' /\ P s'.
Proof.
  intros HP Hok. unfold for_range_res. rewrite Nat.sub_0_r.
  assert (A : forall j, j <= b -> exists s', fold_left (fun r i => let* s := r in body i s) (seq 0 j) (Ok s) = Ok s' /\ P s').
  { induction j as [|j IH]; intros Hj; [exists s; split; [reflexivity|exact HP]|].
    destruct IH as (s1 & E & HP1); [lia|]. rewrite seq_S, fold_left_app, E. cbn [fold_left bind Nat.add]. apply Hok; [lia|exact HP1]. }
  exact (A b (le_n b)).
Qed.

(** ** One level of acorr_multi with complex output *)
Section AutoLevel.
  Variable K : Fld.
  Notation C := (Cx K).
  Lemma complex_add_ok (xv yv : list C) acc : length xv <= length yv -> exists v, _cross_corr_complex_add xv yv acc = Ok v.
  Proof using Type.
    intros H. destruct (@range_ok C (length xv) (fun j acc => match nth_error xv j, nth_error yv j with Some x, Some y => Ok (cadd acc (cmul y (conj x))) | _, _ => Raise OutOfBounds end) (fun _ => True) acc Logic.I) as (v & E & _).
    - intros i s Hi _. destruct (nth_error xv i) eqn:E1; [|apply nth_error_None in E1; lia]. destruct (nth_error yv i) eqn:E2; [|apply nth_error_None in E2; lia]. eauto.
    - exists v. exact E.
  Qed.
  Lemma complex_add_bad (xv : list C) acc : 0 < length xv -> _cross_corr_complex_add xv [] acc = Raise OutOfBounds.
  Proof using Type.
    intros H. apply (@range_raise C _ 0 _ (fun _ => True)); [exact H|exact Logic.I|intros; lia|]. intros s _. destruct xv; reflexivity.
  Qed.
  (** The aligned kernel reads behind the end of the data if there are more delays than samples. *)
  Lemma aligned_bounds (f : list C) out : 2 <= length f -> length f + 1 < length out -> _auto_corr_complex_regular f out = Raise OutOfBounds.
  Proof using Type.
    intros H2 HL. unfold _auto_corr_complex_regular.
    apply (@range_raise _ _ (length f + 1) _ (fun _ => True)); [exact HL|exact Logic.I| |].
    - intros i s Hi _. unfold at_cell. destruct (@complex_add_ok (py_slice f 0 (Z.of_nat (length f) - Z.of_nat i)) (py_slice_from f (Z.of_nat i)) (nth i s (c0 K))) as (v & E).
      + unfold py_slice, py_slice_from, py_bound. rewrite firstn_length, !skipn_length. destruct (Z.ltb_spec (Z.of_nat (length f) - Z.of_nat i) 0), (Z.ltb_spec (Z.of_nat i) 0); cbn [Z.ltb Z.compare]; lia.
      + rewrite E. cbn [bind]. eauto.
    - intros s _. unfold at_cell. replace (py_slice_from f (Z.of_nat (length f + 1))) with (@nil C).
      + rewrite complex_add_bad; [reflexivity|]. unfold py_slice, py_bound. rewrite firstn_length, skipn_length.
        replace (Z.of_nat (length f) - Z.of_nat (length f + 1))%Z with (-1)%Z by lia. cbn [Z.ltb Z.compare]. lia.
      + symmetry. apply length_zero_iff_nil. unfold py_slice_from, py_bound. rewrite skipn_length. destruct (Z.ltb_spec (Z.of_nat (length f + 1)) 0); lia.
  Qed.
End AutoLevel.
Lemma read_ok (G : QGrp) (x : list G) z : (0 <= z < Z.of_nat (length x))%Z -> exists v, read G x z = Ok v.
Proof. intros H. unfold read, py_index. destruct (Z.ltb_spec z 0); [lia|]. destruct (Z.leb_spec 0 z), (Z.ltb_spec z (Z.of_nat (length x))); cbn; try lia. eauto. Qed.
Lemma read_bad (G : QGrp) (x : list G) z : (Z.of_nat (length x) <= z)%Z -> read G x z = Raise OutOfBounds.
Proof. intros H. unfold read, py_index. destruct (Z.ltb_spec z 0); [lia|]. destruct (Z.leb_spec 0 z), (Z.ltb_spec z (Z.of_nat (length x))); cbn; try lia; reflexivity. Qed.
(** The sums read behind the end in any case. *)
Lemma sum_bounds (G : QGrp) (f : list G) n out : length f + 1 < length out -> auto_sum G f None n (Some out) = Raise OutOfBounds.
Proof.
  intros HL. unfold auto_sum, _inspect_auto_arguments. cbn [option_map].
  assert (E : exists N, match n with Some n0 => Ok n0 | None => Ok (length out) end = Ok N) by (destruct n; eexists; reflexivity).
  destruct E as [N ->]. cbn [bind _default_out].
  assert (X : _cross_sum_regular G f (repeat (m0 G) (length out)) = Raise OutOfBounds); [|rewrite X; reflexivity].
  unfold _cross_sum_regular. rewrite (@range_raise _ _ (length f + 1) _ (fun _ => True) _ OutOfBounds); [reflexivity|rewrite repeat_length; exact HL|exact Logic.I| |].
  - intros i [prev o] Hi _. destruct (Nat.eqb_spec i 0) as [->|Ni]; [eauto|].
    destruct (@read_ok G f (Z.of_nat i - 1)) as (a & ->); [lia|]. cbn [bind]. destruct (@read_ok G f (Z.of_nat (length f) - Z.of_nat i)) as (b & ->); [lia|]. cbn [bind]. eauto.
  - intros [prev o] _. replace (length f + 1 =? 0) with false by lia. rewrite read_bad by lia. reflexivity.
Qed.
Lemma auto_pairs_count len k : k <= len -> length (upairs_at k (times (arange len))) = len - k.
Proof.
  intros Hk. pose proof (@acount_cross unit (times (arange len)) k) as E. pose proof (@fold_count unit unit (times (arange len)) (times (arange len)) k) as F.
  rewrite F in E by (rewrite times_regular; apply regular_distinct). specialize (E ltac:(rewrite times_regular; apply regular_distinct)).
  pose proof (@pairs_count_signed len (Z.of_nat k) ltac:(lia)) as P1. pose proof (@pairs_count_signed len (- Z.of_nat k) ltac:(lia)) as P2. pose proof (@pairs_count_signed len 0%Z ltac:(lia)) as P0.
  destruct (Nat.eqb_spec k 0); lia.
Qed.
Section AutoRow.
  Variable K : Fld.
  Variable W : nat -> Cx K.
  Lemma auto_level_row (f : list (Cx K)) n aligned m nm (s : option (list K)) :
    0 < n -> 2 * n <= length f -> m = "corr" \/ m = "fft" /\ is_root (length f * 2) (W (length f * 2)) ->
    _default_norm (Some nm) m false = Ok nm -> (match s with Some s => length s = length f | None => True end) ->
    exists sq d,
      acorr_complex W aligned f None s (Some n) (Some nm) (Some m) (Some (slow_row K (c0 K) true false true nm n)) =
      Ok (DCorr (map (acorr_complex_spec (regular f)) (seq 0 (2 * n + 1))) (map (fun i => length f - i) (seq 0 n)) sq d None) /\
      (match sq with Some l => length l = 2 * n + 1 | None => has_flag nm NORM_STRUCTURED = false end) /\
      (match d with Some l => length l = 2 * n + 1 | None => has_flag nm NORM_SUBTRACTED = false end).
  Proof.
    intros H0 Hn HM HN HS. unfold acorr_complex, acorr_gen.
    assert (Em : _default_method (Some m) (Some n) = Ok m) by (destruct HM as [->|[-> _]]; reflexivity). rewrite Em. cbn [bind]. rewrite HN. cbn [bind].
    assert (Ed : String.eqb m "diff" = false) by (destruct HM as [->|[-> _]]; reflexivity). rewrite Ed. cbn [andb negb].
    unfold slow_row. cbn [unpack_aout bind]. unfold _inspect_auto_arguments. cbn [bind option_map].
    assert (D : auto_correlate_complex f None (Some n) aligned (Some (repeat (c0 K) (n * 2 + 1))) = Ok (map (acorr_complex_spec (regular f)) (seq 0 (2 * n + 1)))).
    { etransitivity; [apply (@auto_correlate_complex_aout K f None (Some n) aligned (repeat (c0 K) (n * 2 + 1)))|].
      - exact Logic.I.
      - intros _ _. etransitivity; [apply Nat.eq_le_incl, repeat_length|lia].
      - f_equal. replace (n * 2 + 1) with (2 * n + 1) by lia. exact (plus_cells_zero (cmon K) (2 * n + 1) _). }
    assert (LC : (if String.eqb m "fft" then auto_correlate_fft_complex W else if String.eqb m "corr" then (fun f t n aout => auto_correlate_complex f t n aligned aout) else (fun f t n _ => let* r := auto_difference f t n aligned None in Ok (map (@cofre K) r)))
      f None (Some n) (Some (repeat (c0 K) (n * 2 + 1))) = Ok (map (acorr_complex_spec (regular f)) (seq 0 (2 * n + 1)))).
    { destruct HM as [->|[-> HR]]; cbn [String.eqb Ascii.eqb Bool.eqb]; [exact D|].
      assert (Hne : f <> []) by (intros ->; cbn in Hn; lia).
      etransitivity; [|exact D].
      apply (@C13_auto_correlate_fft K W f None (length f) (Some n) aligned (@None (list K)) (Some (repeat (c0 K) (n * 2 + 1)))).
      - exact Logic.I.
      - exact Hne.
      - apply regular_distinct.
      - apply covers_regular; [reflexivity|exact Hne].
      - exact HR.
      - unfold output_length. lia.
      - unfold output_length. etransitivity; [apply Nat.eq_le_incl, repeat_length|lia]. }
    rewrite LC. cbn [bind].
    assert (CN : auto_count (TArray (arange (length f))) (Some n) (Some (repeat 0 n)) = Ok (map (fun i => length f - i) (seq 0 n))).
    { rewrite auto_count_aout. f_equal. cbn [targ_times]. etransitivity; [exact (plus_cells_zero natmon n _)|]. apply map_ext_in. intros i Hi. apply in_seq in Hi. apply auto_pairs_count. lia. }
    rewrite CN. cbn [bind given]. rewrite !andb_false_r, !andb_true_r.
    assert (LA : length (abs2 f) = length f) by apply map_length.
    set (r := match s with Some s => s | None => abs2 f end).
    assert (R : length r = length f) by (apply has_length; [exact LA|exact HS]).
    assert (SUM : forall (G : QGrp) (g : list G), length g = length f -> exists o, auto_sum G g None (Some n) (Some (repeat (m0 G) (n * 2 + 1))) = Ok o /\ length o = 2 * n + 1).
    { intros G g Hg. eexists. split; [apply auto_sum_aout; [exact Logic.I|intros _; rewrite repeat_length, Hg; lia]|]. rewrite plus_cells_length, repeat_length. lia. }
    destruct (@SUM (fgrp K) (map (fmul K (fadd K (f1 K) (f1 K))) r)) as (o1 & E1 & L1); [etransitivity; [apply map_length|exact R]|].
    destruct (@SUM (cgrp K) f eq_refl) as (o2 & E2 & L2).
    exists (if has_flag nm NORM_STRUCTURED then Some o1 else None), (if has_flag nm NORM_SUBTRACTED then Some o2 else None).
    split; [|destruct (has_flag nm NORM_STRUCTURED), (has_flag nm NORM_SUBTRACTED); split; first [assumption|reflexivity]].
    cbv zeta. destruct (has_flag nm NORM_STRUCTURED).
    - refine (eq_trans (f_equal (fun x => bind (bind x _) _) E1) _). cbn [bind]. destruct (has_flag nm NORM_SUBTRACTED); [|reflexivity].
      exact (f_equal (fun x => bind (bind x _) _) E2).
    - cbn [bind]. destruct (has_flag nm NORM_SUBTRACTED); [|reflexivity]. exact (f_equal (fun x => bind (bind x _) _) E2).
  Qed.
  (** With fewer samples the arrays are read behind their ends. *)
  Lemma auto_level_bad (f : list (Cx K)) n aligned nm (s : option (list K)) :
    2 <= length f -> length f < 2 * n -> _default_norm (Some nm) "corr" false = Ok nm -> (match s with Some s => length s = length f | None => True end) ->
    aligned = true \/ has_flag nm NORM_STRUCTURED = true \/ has_flag nm NORM_SUBTRACTED = true ->
    acorr_complex W aligned f None s (Some n) (Some nm) (Some "corr") (Some (slow_row K (c0 K) true false true nm n)) = Raise OutOfBounds.
  Proof.
    intros H2 Hn HN HS HC. unfold acorr_complex, acorr_gen. cbn [_default_method String.eqb Ascii.eqb Bool.eqb orb bind]. rewrite HN. cbn [bind andb negb].
    unfold slow_row. cbn [unpack_aout bind]. unfold _inspect_auto_arguments. cbn [bind option_map].
    assert (LR : length (repeat (c0 K) (n * 2 + 1)) = n * 2 + 1) by apply repeat_length.
    destruct aligned.
    - refine (eq_trans (f_equal (fun x => bind x _) (_ : auto_correlate_complex f None (Some n) true (Some (repeat (c0 K) (n * 2 + 1))) = Raise OutOfBounds)) _); [|reflexivity].
      unfold auto_correlate_complex, run_auto, _inspect_auto_arguments. cbn [bind option_map _default_out]. apply aligned_bounds; [exact H2|rewrite LR; lia].
    - destruct HC as [HC|HC]; [discriminate HC|].
      refine (eq_trans (f_equal (fun x => bind x _) (_ : auto_correlate_complex f None (Some n) false (Some (repeat (c0 K) (n * 2 + 1))) = Ok (plus_cells (cmon K) (repeat (c0 K) (n * 2 + 1)) (acorr_complex_spec (regular f))))) _).
      { apply auto_correlate_complex_aout; [exact Logic.I|discriminate]. }
      cbn [bind]. rewrite auto_count_aout. cbn [bind given]. rewrite !andb_true_r.
      set (r := match s with Some s => s | None => abs2 f end).
      assert (R : length r = length f) by (apply has_length; [apply map_length|exact HS]).
      cbv zeta.
      assert (E1 : auto_sum (fgrp K) (map (fmul K (fadd K (f1 K) (f1 K))) r) None (Some n) (Some (repeat (f0 K) (n * 2 + 1))) = Raise OutOfBounds).
      { apply sum_bounds. assert (X : length (map (fmul K (fadd K (f1 K) (f1 K))) r) = length f) by (rewrite map_length; exact R).
        refine (eq_ind_r (fun x => x + 1 < _) _ X). rewrite repeat_length. lia. }
      assert (E2 : auto_sum (cgrp K) f None (Some n) (Some (repeat (c0 K) (n * 2 + 1))) = Raise OutOfBounds).
      { apply sum_bounds. refine (eq_ind_r (fun x => _ + 1 < x) _ LR). change (length f + 1 < n * 2 + 1). lia. }
      destruct (has_flag nm NORM_STRUCTURED).
      + exact (f_equal (fun x => bind (bind x _) _) E1).
      + destruct HC as [HC|HC]; [discriminate HC|]. rewrite HC. cbn [bind]. exact (f_equal (fun x => bind (bind x _) _) E2).
  Qed.
End AutoRow.
