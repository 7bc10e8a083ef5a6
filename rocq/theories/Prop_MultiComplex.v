(** C79: multiple-tau correlation with complex output. *)
From Verif Require Import Base PairSpec Kernels KernelProofs RegularProofs CoreModel FftModel NormModel CorrModel MultiModel MultiSpec MultiProofs MultiLevels FftProofs Prop_Norm1 Prop_Fft Prop_Multi MultiComplex Examples.
From Coq Require Import String ZifyBool ZifyNat.
Open Scope string_scope.
Open Scope nat_scope.
Local Notation length := List.length.
Set Implicit Arguments.

(** The zero arrays of a level: for complex output the data have 2n+1 cells, but the counts have n. *)
Theorem C79_arrays (K : Fld) (V : Type) (zero : V) (complex cross correlate : bool) (norm : Z) (n : nat) :
  let cells := if complex then 2 * n + 1 else n in
  let sums := if negb (Z.land norm 4 =? 0)%Z then Some (repeat (c0 K) cells) else None in
  slow_row K zero complex cross correlate norm n =
    if correlate then DCorr (repeat zero cells) (repeat 0 n) (if negb (Z.land norm 2 =? 0)%Z then Some (repeat (f0 K) cells) else None) sums (if cross then sums else None)
    else DDiff (repeat zero cells) (repeat 0 n) sums (if cross then sums else None).
Proof. cbv zeta. unfold slow_row. replace (2 * n + 1) with (n * 2 + 1) by lia. reflexivity. Qed.
Print Assumptions C79_arrays.

Lemma level_samples len n k l : n <= len / 2 ^ k -> l < k -> n <= len / 2 ^ S l.
Proof.
  intros H Hl. etransitivity; [exact H|]. apply Nat.div_le_compat_l. split; [apply Nat.neq_0_lt_0, Nat.pow_nonzero; lia|]. apply Nat.pow_le_mono_r; lia.
Qed.
Lemma squares_length (K : Fld) nm m (f : list (Cx K)) l : match option_map (block_means (fgrp K) l) (squares_arg nm m f) with Some s => @List.length K s = length f / 2 ^ l | None => True end.
Proof. unfold squares_arg. destruct (_ && _)%bool; [|exact Logic.I]. cbn [option_map]. exact (eq_trans (@block_means_length (fgrp K) l (map (@cnorm2 K) f)) (f_equal (fun x => x / 2 ^ l) (map_length (@cnorm2 K) f))). Qed.

Lemma norm_again norm m cross nm : _default_norm norm m cross = Ok nm -> _default_norm (Some nm) m cross = Ok nm.
Proof.
  unfold _default_norm. cbv zeta. intros HN. match type of HN with (if in_list ?x ?y then _ else _) = _ => destruct (in_list x y) eqn:Ei; [|discriminate HN] end.
  apply (f_equal (fun r => match r with Ok x => x | Raise _ => nm end)) in HN. cbv beta iota in HN. rewrite HN in Ei. rewrite Ei. reflexivity.
Qed.

(** Level l of ccorr_multi(..., complex = True), which holds the correlation of [N] block means:
    the data at delay d are in cell d, or 2n+1+d for negative d, for all |d| <= n;
    the counts are those of the delays |d| < n/2 (in cells d and n+d), and for even n the number of pairs of both delays n/2 and -n/2 in cell n/2. *)
Theorem C79_cross (K : Fld) (W : nat -> Cx K) aligned rs f1 f2 t1 t2 period n norm method m nm fast slow :
  length f1 = length f2 ->
  ccorr_multi_complex W aligned rs f1 f2 t1 t2 period n (Some BINNING_MEAN) None norm method = Ok (fast, slow) ->
  _default_method_and_binning method (Some BINNING_MEAN) = Ok (m, BINNING_MEAN) -> _default_norm norm m true = Ok nm ->
  (m = "fft" -> forall k, 0 < k -> is_root (k * 2) (W (k * 2))) ->
  forall l, l < length slow ->
    let B1 := block_means (cgrp K) (S l) f1 in let B2 := block_means (cgrp K) (S l) f2 in let N := length f1 / 2 ^ S l in
    n <= N /\ exists cor cnt sq d1 d2, nth l slow DBad = DCorr cor cnt sq d1 d2 /\
      length cor = 2 * n + 1 /\ length cnt = n /\
      (forall d : Z, (Z.abs d <= Z.of_nat n)%Z -> nth (Z.to_nat (if (d <? 0)%Z then 2 * Z.of_nat n + 1 + d else d)) cor (c0 K) = corr_complex_spec (regular B1) (regular B2) d) /\
      (forall i, 2 * i < n -> nth i cnt 0 = N - i) /\ (forall i, 0 < i -> 2 * i < n -> nth (n - i) cnt 0 = N - i) /\ (forall i, 2 * i = n -> nth i cnt 0 = 2 * (N - i)).
Proof.
  intros HL H HB HN HW l Hl B1 B2 N.
  destruct (@multi_cross_nlevel _ _ _ _ _ _ _ _ _ _ _ _ _ _ _ _ _ _ H) as (H4 & HK & _).
  assert (HnN : n <= N) by (unfold N; eapply level_samples; eassumption). split; [exact HnN|].
  pose proof (@C29_cross_mean _ _ _ _ _ _ _ _ _ _ _ _ _ _ _ _ _ _ _ _ _ H HB HN l Hl) as R.
  assert (L1 : @List.length (Cx K) B1 = N) by exact (@block_means_length (cgrp K) _ _). assert (L2 : @List.length (Cx K) B2 = N) by (unfold N; rewrite HL; exact (@block_means_length (cgrp K) _ _)).
  assert (HM : m = "corr" \/ m = "fft").
  { unfold _default_method_and_binning in HB. destruct method as [m'|]; [|left; cbn in HB; congruence].
    destruct (String.eqb_spec m' "corr") as [->|]; [left; cbn in HB; congruence|]. destruct (String.eqb_spec m' "fft") as [->|]; [right; cbn in HB; congruence|].
    destruct (String.eqb_spec m' "diff") as [->|]; cbn in HB; discriminate HB. }
  assert (Edf : negb (String.eqb m "diff") = true) by (destruct HM as [->| ->]; reflexivity). rewrite Edf in R.
  assert (HNm : _default_norm (Some nm) m true = Ok nm) by (eapply norm_again; exact HN).
  destruct (@level_row K W B1 B2 n (aligned (S l)) m nm (option_map (block_means (fgrp K) (S l)) (squares_arg nm m f1)) (option_map (block_means (fgrp K) (S l)) (squares_arg nm m f2))) as (sq & d1 & d2 & E & _ & _).
  - rewrite L1, L2. reflexivity.
  - lia.
  - rewrite L1. exact HnN.
  - destruct HM as [->| ->]; [left; reflexivity|right; split; [reflexivity|]]. apply HW; [reflexivity|]. rewrite L1. lia.
  - exact HNm.
  - rewrite L1. apply squares_length.
  - rewrite L1. unfold N. rewrite HL. apply squares_length.
  - assert (RE : Ok (nth l slow DBad) = Ok (DCorr (map (fun i => corr_complex_spec (regular B1) (regular B2) (lag_at (n + 1) i)) (seq 0 (2 * n + 1))) (map (half_count n (length B1)) (seq 0 n)) sq d1 d2)) by exact (eq_trans (eq_sym R) E).
    injection RE as RE. eexists _, _, sq, d1, d2. split; [exact RE|].
    split; [rewrite map_length, seq_length; reflexivity|]. split; [rewrite map_length, seq_length; reflexivity|].
    split; [|rewrite L1; unfold half_count; repeat split].
    + intros d Hd. rewrite nth_map_seq by (destruct (Z.ltb_spec d 0); lia). f_equal. unfold lag_at. destruct (Z.ltb_spec d 0); match goal with |- context [(?a <? ?b)%nat] => destruct (Nat.ltb_spec a b) end; lia.
    + intros i Hi. rewrite nth_map_seq by lia. replace (2 * i <=? n) with true by lia. replace ((1 <=? i) && (n <=? 2 * i))%bool with false by lia. lia.
    + intros i Hi Hi2. rewrite nth_map_seq by lia. replace (2 * (n - i) <=? n) with false by lia. replace ((1 <=? n - i) && (n <=? 2 * (n - i)))%bool with true by lia. lia.
    + intros i Hi. rewrite nth_map_seq by lia. replace (2 * i <=? n) with true by lia. replace ((1 <=? i) && (n <=? 2 * i))%bool with true by lia. lia.
Qed.
Print Assumptions C79_cross.

(** So the count in cell n-1 is never that of the data in cell n-1, delay n-1; the cells n, ..., 2n of the data have no counts at all. *)
Theorem C79_counts_refuted (K : Fld) (W : nat -> Cx K) aligned rs f1 f2 t1 t2 period n norm method m nm fast slow :
  length f1 = length f2 ->
  ccorr_multi_complex W aligned rs f1 f2 t1 t2 period n (Some BINNING_MEAN) None norm method = Ok (fast, slow) ->
  _default_method_and_binning method (Some BINNING_MEAN) = Ok (m, BINNING_MEAN) -> _default_norm norm m true = Ok nm ->
  (m = "fft" -> forall k, 0 < k -> is_root (k * 2) (W (k * 2))) ->
  forall l, l < length slow -> exists cor cnt sq d1 d2, nth l slow DBad = DCorr cor cnt sq d1 d2 /\ length cnt < length cor /\
    nth (n - 1) cnt 0 <> length (pairs_signed (Z.of_nat (n - 1)) (regular (block_means (cgrp K) (S l) f1)) (regular (block_means (cgrp K) (S l) f2))).
Proof.
  intros HL H HB HN HW l Hl.
  destruct (@multi_cross_nlevel _ _ _ _ _ _ _ _ _ _ _ _ _ _ _ _ _ _ H) as (H4 & HK & _).
  destruct (@C79_cross K W aligned rs f1 f2 t1 t2 period n norm method m nm fast slow HL H HB HN HW l Hl) as (HnN & cor & cnt & sq & d1 & d2 & E & L1 & L2 & _ & C1 & C2 & C3).
  exists cor, cnt, sq, d1, d2. split; [exact E|]. split; [lia|]. rewrite C2 by lia.
  assert (X : length (pairs_signed (Z.of_nat (n - 1)) (regular (block_means (cgrp K) (S l) f1)) (regular (block_means (cgrp K) (S l) f2))) = length f1 / 2 ^ S l - (n - 1)).
  { rewrite <- Sum_nat_1. rewrite (@regular_pairs_pos natmon _ _ _ _ (c0 K) (c0 K)) by exact (eq_trans (@block_means_length (cgrp K) (S l) f1) (eq_trans (f_equal (fun x => x / 2 ^ S l) HL) (eq_sym (@block_means_length (cgrp K) (S l) f2)))). rewrite Sum_nat_1, seq_length. exact (f_equal (fun x => x - (n - 1)) (@block_means_length (cgrp K) (S l) f1)). }
  rewrite X. lia.
Qed.
Print Assumptions C79_counts_refuted.

(** One level of acorr_multi(..., complex = True) with at least 2n block means: delays 0, ..., 2n in the data, 0, ..., n-1 in the counts *)
Theorem C79_auto (K : Fld) (W : nat -> Cx K) (f : list (Cx K)) n aligned m nm (s : option (list K)) :
  0 < n -> 2 * n <= length f -> m = "corr" \/ m = "fft" /\ is_root (length f * 2) (W (length f * 2)) ->
  _default_norm (Some nm) m false = Ok nm -> (match s with Some s => length s = length f | None => True end) ->
  exists cor cnt sq d, acorr_complex W aligned f None s (Some n) (Some nm) (Some m) (Some (slow_row K (c0 K) true false true nm n)) = Ok (DCorr cor cnt sq d None) /\
    length cor = 2 * n + 1 /\ length cnt = n /\ (forall i, i <= 2 * n -> nth i cor (c0 K) = acorr_complex_spec (regular f) i) /\ (forall i, i < n -> nth i cnt 0 = length f - i).
Proof.
  intros H0 Hn HM HN HS. destruct (@auto_level_row K W f n aligned m nm s H0 Hn HM HN HS) as (sq & d & E & _).
  eexists _, _, sq, d. split; [exact E|]. rewrite !map_length, !seq_length. repeat split; intros i Hi; rewrite nth_map_seq by lia; reflexivity.
Qed.
Print Assumptions C79_auto.
(** But the last level has fewer than 2n block means, and the sums and the kernel for aligned data read behind the end of the array:
    with the default number of levels acorr_multi(..., complex = True) is only defined if there is no level at all, unless the
    data of the last level are not aligned and the norm needs no sums. *)
Theorem C79_auto_refuted (K : Fld) (W : nat -> Cx K) aligned rs f t period n norm nm fast slow :
  acorr_multi_complex W aligned rs f t period n None None norm None = Ok (fast, slow) -> _default_norm norm "corr" false = Ok nm ->
  (forall l, aligned l = true) \/ has_flag nm NORM_STRUCTURED = true \/ has_flag nm NORM_SUBTRACTED = true ->
  slow = [] /\ length f < 2 * n.
Proof.
  intros H HN HC. destruct (@multi_auto_nlevel _ _ _ _ _ _ _ _ _ _ _ _ _ _ _ _ H) as (H4 & H1 & H2).
  assert (HNm : _default_norm (Some nm) "corr" false = Ok nm) by (eapply norm_again; exact HN).
  assert (H3 : length f / 2 ^ length slow < 2 * n).
  { rewrite Nat.pow_succ_r', Nat.mul_comm, <- Nat.div_div in H2 by (try lia; apply Nat.pow_nonzero; lia). revert H2. generalize (length f / 2 ^ length slow). intros x. pose proof (Nat.div_mod x 2). pose proof (Nat.mod_upper_bound x 2). lia. }
  destruct slow as [|row slow']; [split; [reflexivity|]; cbn [List.length Nat.pow] in H3; rewrite Nat.div_1_r in H3; exact H3|exfalso].
  set (slow := row :: slow') in *. assert (Hl : length slow' < length slow) by (unfold slow; cbn; lia).
  pose proof (@C29_auto_mean _ _ _ _ _ _ _ _ _ _ _ _ _ _ _ "corr" nm _ _ H eq_refl HN (length slow') Hl) as R.
  assert (L : @List.length (Cx K) (block_means (cgrp K) (S (length slow')) f) = length f / 2 ^ length slow) by exact (@block_means_length (cgrp K) _ _).
  cbn [negb String.eqb Ascii.eqb Bool.eqb] in R.
  rewrite (@auto_level_bad K W (block_means (cgrp K) (S (length slow')) f) n (aligned (S (length slow'))) nm (option_map (block_means (fgrp K) (S (length slow'))) (squares_arg nm "corr" f))) in R.
  - discriminate R.
  - rewrite L. lia.
  - rewrite L. exact H3.
  - exact HNm.
  - rewrite L. apply squares_length.
  - destruct HC as [HC|HC]; [left; apply HC|right; exact HC].
Qed.
Print Assumptions C79_auto_refuted.
(** Twelve frames with level size 5: one level with six block means, eleven cells of data and five counts; the auto-correlation is not defined, the one of nine frames (no level) is. *)
Example C79_example :
  let f := firstn 12 mf1 in let g := firstn 12 mf2 in
  (match ccorr_multi_complex nW no_al no_rs f g None None 1 5 (Some BINNING_MEAN) None (Some 1%Z) (Some "corr") with
   | Ok (_, [DCorr cor cnt None None None]) => Some (map showc cor, cnt) | _ => None end) =
  Some (map (fun d => showc (corr_complex_spec (regular (block_means (cgrp QcF) 1 f)) (regular (block_means (cgrp QcF) 1 g)) d)) [0; 1; 2; 3; 4; 5; -5; -4; -3; -2; -1]%Z, [6; 5; 4; 4; 5]) /\
  acorr_multi_complex nW no_al no_rs f None 1 5 None None None None = Raise OutOfBounds /\
  (exists fast, acorr_multi_complex nW no_al no_rs (firstn 9 f) None 1 5 None None None None = Ok (fast, [])) /\
  _default_norm None "corr" false = Ok 7%Z /\ has_flag 7 NORM_STRUCTURED = true.
Proof. split; [vm_compute; reflexivity|]. split; [vm_compute; reflexivity|]. split; [eexists; vm_compute; reflexivity|]. split; reflexivity. Qed.
