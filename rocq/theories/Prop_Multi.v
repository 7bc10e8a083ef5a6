(** Properties C29 and C30: binning and levels of the in-memory multiple-tau functions. *)
From Verif Require Import Base Kernels PairSpec CoreModel NormModel CorrModel MultiModel MultiSpec MultiProofs MultiLevels Examples Prop_Norm1.
From Coq Require Import String.
Open Scope string_scope.
Open Scope nat_scope.
Open Scope list_scope.
Local Notation length := List.length.
Set Implicit Arguments.

(* ------------------------------------------------------------------ *)
(** * C29 *)
(** Applying mean_data [l] times gives the means of all complete blocks of 2^l
    samples; applying slice_data gives the first samples of the blocks. *)
Theorem C29_mean_data (G : QGrp) (f : list G) l :
  Nat.iter l (mean_data G) f = block_means G l f /\ length (block_means G l f) = length f / 2 ^ l.
Proof.
  split; [|apply block_means_length]. induction l as [|l IH]; [symmetry; apply block_means_0|].
  cbn [Nat.iter nat_rect]. unfold Nat.iter in IH. rewrite IH. apply mean_data_blocks.
Qed.
Print Assumptions C29_mean_data.
Theorem C29_slice_data (G : QGrp) (f : list G) l : Nat.iter l (slice_data G) f = block_firsts G l f.
Proof.
  induction l as [|l IH]; [symmetry; apply block_firsts_0|].
  cbn [Nat.iter nat_rect]. unfold Nat.iter in IH. rewrite IH. apply slice_data_firsts.
Qed.
Print Assumptions C29_slice_data.
(** A block mean is the sum of the block divided by its length. *)
Theorem C29_block_mean (K : Fld) l (x : nat -> K) (z : nat -> Cx K) k :
  block_mean (fgrp K) l x k = fdiv K (Sum (fmon K) (seq (k * 2 ^ l) (2 ^ l)) x) (fnat K (2 ^ l)) /\
  block_mean (cgrp K) l z k =
    (fdiv K (Sum (fmon K) (seq (k * 2 ^ l) (2 ^ l)) (fun i => cre (z i))) (fnat K (2 ^ l)),
     fdiv K (Sum (fmon K) (seq (k * 2 ^ l) (2 ^ l)) (fun i => cim (z i))) (fnat K (2 ^ l))).
Proof. rewrite block_mean_complex, !block_mean_real. split; reflexivity. Qed.
Print Assumptions C29_block_mean.
(** Level l of ccorr_multi (with a correlation function [cc]: ccorr, real or complex)
    is the correlation of the block means of both signals; the squares of this level
    are the block means of the squares. *)
Theorem C29_cross_mean K V zero complex cc aligned rs f1 f2 t1 t2 period level_size binning nlevel norm method m nm fast slow :
  @multi_cross K V zero complex cc aligned rs f1 f2 t1 t2 period level_size binning nlevel norm method = Ok (fast, slow) ->
  _default_method_and_binning method binning = Ok (m, BINNING_MEAN) -> _default_norm norm m true = Ok nm ->
  forall l, l < length slow ->
    cc (aligned (S l)) (block_means (cgrp K) (S l) f1) (block_means (cgrp K) (S l) f2) None None (Some level_size) (Some nm) (Some m)
      (option_map (block_means (fgrp K) (S l)) (squares_arg nm m f1)) (option_map (block_means (fgrp K) (S l)) (squares_arg nm m f2))
      (Some (slow_row K zero complex true (negb (String.eqb m "diff")) nm level_size)) = Ok (nth l slow DBad).
Proof. apply (@multi_cross_levels K V zero complex cc aligned rs BINNING_MEAN block_means block_means_0 mean_levels). Qed.
Print Assumptions C29_cross_mean.
Theorem C29_auto_mean K V zero complex ac aligned rs f t period level_size binning nlevel norm method m nm fast slow :
  @multi_auto K V zero complex ac aligned rs f t period level_size binning nlevel norm method = Ok (fast, slow) ->
  _default_method_and_binning method binning = Ok (m, BINNING_MEAN) -> _default_norm norm m false = Ok nm ->
  forall l, l < length slow ->
    ac (aligned (S l)) (block_means (cgrp K) (S l) f) None (option_map (block_means (fgrp K) (S l)) (squares_arg nm m f))
      (Some level_size) (Some nm) (Some m)
      (Some (slow_row K zero complex false (negb (String.eqb m "diff")) nm level_size)) = Ok (nth l slow DBad).
Proof. apply (@multi_auto_levels K V zero complex ac aligned rs BINNING_MEAN block_means block_means_0 mean_levels). Qed.
Print Assumptions C29_auto_mean.
Theorem C29_cross_first K V zero complex cc aligned rs f1 f2 t1 t2 period level_size binning nlevel norm method m nm fast slow :
  @multi_cross K V zero complex cc aligned rs f1 f2 t1 t2 period level_size binning nlevel norm method = Ok (fast, slow) ->
  _default_method_and_binning method binning = Ok (m, BINNING_FIRST) -> _default_norm norm m true = Ok nm ->
  forall l, l < length slow ->
    cc (aligned (S l)) (block_firsts (cgrp K) (S l) f1) (block_firsts (cgrp K) (S l) f2) None None (Some level_size) (Some nm) (Some m)
      (option_map (block_firsts (fgrp K) (S l)) (squares_arg nm m f1)) (option_map (block_firsts (fgrp K) (S l)) (squares_arg nm m f2))
      (Some (slow_row K zero complex true (negb (String.eqb m "diff")) nm level_size)) = Ok (nth l slow DBad).
Proof. apply (@multi_cross_levels K V zero complex cc aligned rs BINNING_FIRST block_firsts block_firsts_0 first_levels). Qed.
Print Assumptions C29_cross_first.
Theorem C29_auto_first K V zero complex ac aligned rs f t period level_size binning nlevel norm method m nm fast slow :
  @multi_auto K V zero complex ac aligned rs f t period level_size binning nlevel norm method = Ok (fast, slow) ->
  _default_method_and_binning method binning = Ok (m, BINNING_FIRST) -> _default_norm norm m false = Ok nm ->
  forall l, l < length slow ->
    ac (aligned (S l)) (block_firsts (cgrp K) (S l) f) None (option_map (block_firsts (fgrp K) (S l)) (squares_arg nm m f))
      (Some level_size) (Some nm) (Some m)
      (Some (slow_row K zero complex false (negb (String.eqb m "diff")) nm level_size)) = Ok (nth l slow DBad).
Proof. apply (@multi_auto_levels K V zero complex ac aligned rs BINNING_FIRST block_firsts block_firsts_0 first_levels). Qed.
Print Assumptions C29_auto_first.

Definition mf1 := map (fun k => cz (Z.of_nat k * Z.of_nat k) (Z.of_nat k)) (seq 0 13).
Definition mf2 := map (fun k => cz 1 (Z.of_nat k - 3)) (seq 0 13).
Definition no_al (_ : nat) := false.
Definition no_rs (_ _ : nat) := false.
Definition show_cor (d : cdata QcF QcF) : list (Z * Z) := match d with DCorr v _ _ _ _ => map show v | DDiff v _ _ _ => map show v | DBad => [] end.
Definition show_cnt (d : cdata QcF QcF) : list nat := match d with DCorr _ c _ _ _ => c | DDiff _ c _ _ => c | DBad => [] end.
Definition show_rows (r : res (cdata QcF QcF * list (cdata QcF QcF))) :=
  match r with Ok (a, b) => Some (show_cor a, show_cnt a, map show_cor b, map show_cnt b) | Raise _ => None end.
Definition show_c (l : list (Cx QcF)) := map showc l.

(** 13 frames: level 1 has six blocks, the last frame is dropped. *)
Example C29_example :
  map showc (block_means (cgrp QcF) 1 mf1) =
    [((1, 2), (1, 2)); ((13, 2), (5, 2)); ((41, 2), (9, 2)); ((85, 2), (13, 2)); ((145, 2), (17, 2)); ((221, 2), (21, 2))]%Z /\
  _default_method_and_binning None None = Ok ("corr", BINNING_MEAN) /\
  show_rows (ccorr_multi nW no_al no_rs mf1 mf2 None None 1 5 None None None None) <> None /\
  option_map (fun r => snd r) (show_rows (ccorr_multi nW no_al no_rs mf1 mf2 None None 1 5 None None None None)) =
    Some [[6; 10; 8; 6; 4]].
Proof. vm_compute. repeat split; discriminate. Qed.

(* ------------------------------------------------------------------ *)
(** * C30 *)
Theorem C30_number_of_levels len n period : 4 < n <= len ->
  exists nlevel, _determine_lengths len n period None = Ok (period * n, n, nlevel) /\
    forall l, n <= len / 2 ^ l <-> l <= nlevel.
Proof.
  intros H. destruct (determine_lengths_ok period H) as (nl & E & H1 & H2). exists nl. split; [exact E|].
  intros l. split; intros HL.
  - destruct (Nat.le_gt_cases l nl) as [|G]; [assumption|exfalso].
    assert (len / 2 ^ l <= len / 2 ^ S nl) by (apply Nat.div_le_compat_l; split; [apply Nat.neq_0_lt_0, Nat.pow_nonzero; lia|apply Nat.pow_le_mono_r; lia]).
    lia.
  - assert (len / 2 ^ nl <= len / 2 ^ l) by (apply Nat.div_le_compat_l; split; [apply Nat.neq_0_lt_0, Nat.pow_nonzero; lia|apply Nat.pow_le_mono_r; lia]).
    lia.
Qed.
Print Assumptions C30_number_of_levels.
(** Otherwise the assertions fail. *)
Theorem C30_rejected len n period : n <= 4 \/ len < n -> _determine_lengths len n period None = Raise AssertionError.
Proof.
  intros H. destruct (_determine_lengths len n period None) as [[[nf ns] nl]|e] eqn:E.
  - apply determine_lengths_inv in E. lia.
  - unfold _determine_lengths in E. destruct (n <=? 4); [congruence|]. match type of E with (if ?c then _ else _) = _ => destruct c end; congruence.
Qed.
Print Assumptions C30_rejected.
(** The number of returned levels of the in-memory functions. *)
Theorem C30_cross_levels K V zero complex cc aligned rs f1 f2 t1 t2 period n binning norm method fast slow :
  @multi_cross K V zero complex cc aligned rs f1 f2 t1 t2 period n binning None norm method = Ok (fast, slow) ->
  4 < n <= length f1 /\ n <= length f1 / 2 ^ length slow /\ length f1 / 2 ^ S (length slow) < n.
Proof. apply multi_cross_nlevel. Qed.
Print Assumptions C30_cross_levels.
Theorem C30_auto_levels K V zero complex ac aligned rs f t period n binning norm method fast slow :
  @multi_auto K V zero complex ac aligned rs f t period n binning None norm method = Ok (fast, slow) ->
  4 < n <= length f /\ n <= length f / 2 ^ length slow /\ length f / 2 ^ S (length slow) < n.
Proof. apply multi_auto_nlevel. Qed.
Print Assumptions C30_auto_levels.
Example C30_example : _determine_lengths 13 5 3 None = Ok (15, 5, 1) /\ _determine_lengths 1024 16 16 None = Ok (256, 16, 6) /\
  _determine_lengths 13 4 3 None = Raise AssertionError /\ _determine_lengths 13 14 3 None = Raise AssertionError.
Proof. repeat split. Qed.
