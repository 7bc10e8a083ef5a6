(** Properties C01-C06: the correlation and difference functions of core.py. *)
From Verif Require Import Base Kernels PairSpec CoreModel VecModel RegularProofs CoreProofs CoreProofs2 CoreProofs3
  CoreApi CoreApi2 Examples.
Set Implicit Arguments.

(** Example data: complex signals with unsorted, repeated and negative times. *)
Definition xf1 := [cz 1 2; cz 3 (-1); cz 0 1].
Definition xf2 := [cz 2 0; cz 1 1; cz (-1) 2].
Definition xt1 := [4; -1; 4]%Z.
Definition xt2 := [5; 3; -1]%Z.
Example x_valid : valid_cross xf1 xf2 (Some xt1) (Some xt2).
Proof. repeat split; discriminate. Qed.
Example x_valid_auto : valid_auto xf1 (Some xt2).
Proof. repeat split; discriminate. Qed.

(* ------------------------------------------------------------------ *)
(** * C01 *)
Theorem C01_cross_correlate_pair_sum (K : Fld) (f1 f2 : list (Cx K)) t1 t2 n aligned :
  valid_cross f1 f2 t1 t2 -> (t1 = None -> aligned = true -> n <= length f1 + 1)%nat ->
  cross_correlate f1 f2 t1 t2 (Some n) aligned None =
  Ok (map (corr_spec (samples f1 t1) (samples f2 t2)) (seq 0 n)).
Proof. exact (@cross_correlate_fresh K f1 f2 t1 t2 n aligned). Qed.
Print Assumptions C01_cross_correlate_pair_sum.

Example C01_example :
  show_all show (cross_correlate xf1 xf2 (Some xt1) (Some xt2) (Some 6%nat) true None) =
  Ok [(-5, 1); (6, 1); (0, 1); (0, 1); (2, 1); (5, 1)]%Z.
Proof. reflexivity. Qed.

(** Inadmissible lengths or times (including only one of the two time arrays,
    which the documentation allows) raise ValueError. *)
Theorem C01_invalid_arguments (K : Fld) (f1 f2 : list (Cx K)) t1 t2 n aligned aout :
  ~ valid_cross f1 f2 t1 t2 ->
  cross_correlate f1 f2 t1 t2 n aligned aout = Raise ValueError /\
  (forall aoutc, cross_correlate_complex f1 f2 t1 t2 n aligned aoutc = Raise ValueError) /\
  cross_difference f1 f2 t1 t2 n aligned aout = Raise ValueError.
Proof. apply cross_correlate_invalid. Qed.
Print Assumptions C01_invalid_arguments.
Example C01_invalid_example : ~ valid_cross xf1 xf2 (Some xt1) None.
Proof. intros [_ []]. Qed.

(* ------------------------------------------------------------------ *)
(** * C02 *)
Theorem C02_complex_signed_delays (K : Fld) (f1 f2 : list (Cx K)) t1 t2 n aligned :
  valid_cross f1 f2 t1 t2 -> (0 < n)%nat -> (t1 = None -> aligned = true -> n <= length f1 + 1)%nat ->
  exists out, cross_correlate_complex f1 f2 t1 t2 (Some n) aligned None = Ok out /\
    length out = (2 * n - 1)%nat /\
    (forall k, (k < n)%nat -> nth k out (c0 K) =
       corr_complex_spec (samples f1 t1) (samples f2 t2) (Z.of_nat k)) /\
    (forall k, (1 <= k < n)%nat -> nth (length out - k) out (c0 K) =
       corr_complex_spec (samples f1 t1) (samples f2 t2) (- Z.of_nat k)).
Proof. exact (@cross_correlate_complex_entries K f1 f2 t1 t2 n aligned). Qed.
Print Assumptions C02_complex_signed_delays.
Example C02_example :
  show_all showc (cross_correlate_complex xf1 xf2 (Some xt1) (Some xt2) (Some 2%nat) true None) =
  Ok [((-5, 1), (5, 1)); ((2, 1), (-6, 1)); ((4, 1), (-2, 1))]%Z.
Proof. reflexivity. Qed.

(** The formula of the documentation, f1[i] * conj(f2[j]). *)
Definition documented_prod (K : Fld) (p : sample (Cx K) * sample (Cx K)) : Cx K :=
  cmul (fst (fst p)) (conj (fst (snd p))).
Definition documented_spec (K : Fld) (d1 d2 : list (sample (Cx K))) (m : Z) : Cx K :=
  Sum (cmon K) (pairs_signed m d1 d2) (@documented_prod K).
Theorem C02_documented_formula_is_conjugate (K : Fld) (d1 d2 : list (sample (Cx K))) m :
  documented_spec d1 d2 m = conj (corr_complex_spec d1 d2 m).
Proof. apply documented_is_conj. Qed.
Print Assumptions C02_documented_formula_is_conjugate.
Theorem C02_documented_formula_refuted :
  exists f1 f2 : list (Cx QcF), exists out,
    cross_correlate_complex f1 f2 None None (Some 1%nat) true None = Ok out /\
    nth 0 out (c0 QcF) <> documented_spec (regular f1) (regular f2) 0%Z.
Proof.
  exists [cz 1 0], [cz 0 1]. eexists. split; [reflexivity|].
  intros E. apply (f_equal (fun z => show (cim z))) in E. discriminate E.
Qed.
Print Assumptions C02_documented_formula_refuted.

(* ------------------------------------------------------------------ *)
(** * C03 *)
Theorem C03_auto_correlate_unordered_pairs (K : Fld) (f : list (Cx K)) t n aligned :
  valid_auto f t -> (t = None -> aligned = true -> n <= length f + 1)%nat ->
  auto_correlate f t (Some n) aligned None = Ok (map (acorr_spec (samples f t)) (seq 0 n)) /\
  auto_correlate_complex f t (Some n) aligned None = Ok (map (acorr_complex_spec (samples f t)) (seq 0 n)) /\
  auto_difference f t (Some n) aligned None = Ok (map (adiff_spec (samples f t)) (seq 0 n)).
Proof.
  intros HV Hn. split; [|split]; [apply auto_correlate_fresh|apply auto_correlate_complex_fresh|
    apply auto_difference_fresh]; assumption.
Qed.
Print Assumptions C03_auto_correlate_unordered_pairs.
Example C03_example :
  show_all showc (auto_correlate_complex xf1 (Some xt2) (Some 3%nat) true None) =
  Ok [((16, 1), (0, 1)); ((0, 1), (0, 1)); ((1, 1), (7, 1))]%Z.
Proof. reflexivity. Qed.
Theorem C03_invalid_arguments (K : Fld) (f : list (Cx K)) t n aligned aout :
  ~ valid_auto f t ->
  auto_correlate f t n aligned aout = Raise ValueError /\
  (forall aoutc, auto_correlate_complex f t n aligned aoutc = Raise ValueError) /\
  auto_difference f t n aligned aout = Raise ValueError.
Proof. apply auto_correlate_invalid. Qed.
Print Assumptions C03_invalid_arguments.
Example C03_invalid_example : ~ valid_auto xf1 (Some [1; 2]%Z).
Proof. intros [H _]. discriminate H. Qed.

(* ------------------------------------------------------------------ *)
(** * C04 *)
Theorem C04_regular_agrees_with_irregular (K : Fld) (f1 f2 : list (Cx K)) n aligned :
  length f1 = length f2 -> f1 <> [] -> (n <= length f1 + 1)%nat ->
  let t := Some (arange (length f1)) in
  cross_correlate f1 f2 None None (Some n) true None = cross_correlate f1 f2 t t (Some n) aligned None /\
  cross_difference f1 f2 None None (Some n) true None = cross_difference f1 f2 t t (Some n) aligned None /\
  ((0 < n)%nat -> cross_correlate_complex f1 f2 None None (Some n) true None =
                  cross_correlate_complex f1 f2 t t (Some n) aligned None) /\
  auto_correlate f1 None (Some n) true None = auto_correlate f1 t (Some n) aligned None /\
  auto_correlate_complex f1 None (Some n) true None = auto_correlate_complex f1 t (Some n) aligned None /\
  auto_difference f1 None (Some n) true None = auto_difference f1 t (Some n) aligned None.
Proof. exact (@regular_is_irregular K f1 f2 n aligned). Qed.
Print Assumptions C04_regular_agrees_with_irregular.
Example C04_example :
  show_all show (cross_correlate xf1 xf2 None None (Some 4%nat) true None) =
  Ok [(6, 1); (5, 1); (3, 1); (0, 1)]%Z.
Proof. reflexivity. Qed.

(** The bound on n is necessary: one more delay and the compiled loop reads
    outside the arrays. *)
Theorem C04_longer_output_reads_out_of_bounds (K : Fld) (f1 f2 : list (Cx K)) n :
  length f1 = length f2 -> (2 <= length f1)%nat -> (length f1 + 1 < n)%nat ->
  cross_correlate f1 f2 None None (Some n) true None = Raise OutOfBounds.
Proof. exact (@cross_correlate_too_long K f1 f2 n). Qed.
Print Assumptions C04_longer_output_reads_out_of_bounds.
Example C04_too_long_example : (2 <= length xf1)%nat /\ (length xf1 + 1 < 5)%nat.
Proof. simpl. lia. Qed.

(* ------------------------------------------------------------------ *)
(** * C05 *)
Theorem C05_cross_correlate_pixels (K : Fld) w (f1 f2 : list (list (Cx K))) t1 t2 n aligned aout :
  rect w f1 -> rect w f2 -> rect_opt w aout ->
  (forall out, cross_correlate_frames w f1 f2 t1 t2 n aligned aout = Ok out ->
     forall p, (p < w)%nat ->
     cross_correlate (pixel (c0 K) p f1) (pixel (c0 K) p f2) t1 t2 n aligned (option_map (pixel (f0 K) p) aout)
     = Ok (pixel (f0 K) p out)) /\
  ((0 < w)%nat ->
   (forall p, (p < w)%nat -> exists o,
      cross_correlate (pixel (c0 K) p f1) (pixel (c0 K) p f2) t1 t2 n aligned (option_map (pixel (f0 K) p) aout)
      = Ok o) ->
   exists out, cross_correlate_frames w f1 f2 t1 t2 n aligned aout = Ok out).
Proof. apply cross_correlate_frames_pixel. Qed.
Print Assumptions C05_cross_correlate_pixels.
Theorem C05_cross_correlate_complex_pixels (K : Fld) w (f1 f2 : list (list (Cx K))) t1 t2 n aligned aout :
  rect w f1 -> rect w f2 -> rect_opt w aout ->
  (forall out, cross_correlate_complex_frames w f1 f2 t1 t2 n aligned aout = Ok out ->
     forall p, (p < w)%nat ->
     cross_correlate_complex (pixel (c0 K) p f1) (pixel (c0 K) p f2) t1 t2 n aligned
       (option_map (pixel (c0 K) p) aout) = Ok (pixel (c0 K) p out)) /\
  ((0 < w)%nat ->
   (forall p, (p < w)%nat -> exists o,
      cross_correlate_complex (pixel (c0 K) p f1) (pixel (c0 K) p f2) t1 t2 n aligned
        (option_map (pixel (c0 K) p) aout) = Ok o) ->
   exists out, cross_correlate_complex_frames w f1 f2 t1 t2 n aligned aout = Ok out).
Proof. apply cross_correlate_complex_frames_pixel. Qed.
Print Assumptions C05_cross_correlate_complex_pixels.
Theorem C05_cross_difference_pixels (K : Fld) w (f1 f2 : list (list (Cx K))) t1 t2 n aligned aout :
  rect w f1 -> rect w f2 -> rect_opt w aout ->
  (forall out, cross_difference_frames w f1 f2 t1 t2 n aligned aout = Ok out ->
     forall p, (p < w)%nat ->
     cross_difference (pixel (c0 K) p f1) (pixel (c0 K) p f2) t1 t2 n aligned (option_map (pixel (f0 K) p) aout)
     = Ok (pixel (f0 K) p out)) /\
  ((0 < w)%nat ->
   (forall p, (p < w)%nat -> exists o,
      cross_difference (pixel (c0 K) p f1) (pixel (c0 K) p f2) t1 t2 n aligned (option_map (pixel (f0 K) p) aout)
      = Ok o) ->
   exists out, cross_difference_frames w f1 f2 t1 t2 n aligned aout = Ok out).
Proof. apply cross_difference_frames_pixel. Qed.
Print Assumptions C05_cross_difference_pixels.
Theorem C05_auto_pixels (K : Fld) w (f : list (list (Cx K))) t n aligned aout aoutc out outc outd :
  rect w f -> rect_opt w aout -> rect_opt w aoutc ->
  auto_correlate_frames w f t n aligned aout = Ok out ->
  auto_correlate_complex_frames w f t n aligned aoutc = Ok outc ->
  auto_difference_frames w f t n aligned aout = Ok outd ->
  forall p, (p < w)%nat ->
    auto_correlate (pixel (c0 K) p f) t n aligned (option_map (pixel (f0 K) p) aout) = Ok (pixel (f0 K) p out) /\
    auto_correlate_complex (pixel (c0 K) p f) t n aligned (option_map (pixel (c0 K) p) aoutc)
      = Ok (pixel (c0 K) p outc) /\
    auto_difference (pixel (c0 K) p f) t n aligned (option_map (pixel (f0 K) p) aout) = Ok (pixel (f0 K) p outd).
Proof.
  intros R Ra Rc E1 E2 E3 p Hp. split; [|split].
  - eapply auto_correlate_frames_pixel; eassumption.
  - eapply auto_correlate_complex_frames_pixel; eassumption.
  - eapply auto_difference_frames_pixel; eassumption.
Qed.
Print Assumptions C05_auto_pixels.
Theorem C05_auto_pixels_exist (K : Fld) w (f : list (list (Cx K))) t n aligned :
  rect w f -> (0 < w)%nat -> valid_auto f t -> (t = None -> aligned = true -> n <= length f + 1)%nat ->
  exists out outc outd,
    auto_correlate_frames w f t (Some n) aligned None = Ok out /\
    auto_correlate_complex_frames w f t (Some n) aligned None = Ok outc /\
    auto_difference_frames w f t (Some n) aligned None = Ok outd.
Proof. exact (@auto_frames_exist K w f t n aligned). Qed.
Print Assumptions C05_auto_pixels_exist.
(** The vectorised kernels of cross_sum. *)
Theorem C05_cross_sum_kernel_pixels (G : QGrp) w p (f : list (list G)) t1 t2 out :
  (p < w)%nat -> rect w f -> length t1 = length f -> rect w out ->
  pixel (m0 G) p (_cross_sum_vec G f t1 t2 out) = _cross_sum G (pixel (m0 G) p f) t1 t2 (pixel (m0 G) p out) /\
  pixel (m0 G) p (_cross_sum_complex_vec G f t1 t2 out) =
    _cross_sum_complex G (pixel (m0 G) p f) t1 t2 (pixel (m0 G) p out).
Proof. exact (@cross_sum_vec_pixels G w p f t1 t2 out). Qed.
Print Assumptions C05_cross_sum_kernel_pixels.
Definition xframes := [[cz 1 2; cz 0 1]; [cz 3 0; cz 1 1]; [cz 2 (-1); cz 0 0]].
Example C05_example :
  rect 2 xframes /\
  show_all (map show) (cross_correlate_frames 2 xframes xframes (Some xt1) (Some xt2) (Some 2%nat) true None) =
  Ok [[(6, 1); (0, 1)]; [(14, 1); (2, 1)]]%Z.
Proof. split; [repeat constructor|reflexivity]. Qed.

(* ------------------------------------------------------------------ *)
(** * C06 *)
Theorem C06_cross_difference_square (K : Fld) (f1 f2 : list (Cx K)) t1 t2 n aligned :
  valid_cross f1 f2 t1 t2 -> (t1 = None -> aligned = true -> n <= length f1 + 1)%nat ->
  cross_difference f1 f2 t1 t2 (Some n) aligned None =
  Ok (map (diff_spec (samples f1 t1) (samples f2 t2)) (seq 0 n)).
Proof. exact (@cross_difference_fresh K f1 f2 t1 t2 n aligned). Qed.
Print Assumptions C06_cross_difference_square.
Theorem C06_difference_from_correlation (K : Fld) (f1 f2 : list (Cx K)) t1 t2 n aligned inv1 inv2 :
  valid_cross f1 f2 t1 t2 -> (t1 = None -> n <= length f1 + 1)%nat ->
  exists d c s1 s2,
    cross_difference f1 f2 t1 t2 (Some n) aligned None = Ok d /\
    cross_correlate f1 f2 t1 t2 (Some n) aligned None = Ok c /\
    cross_sum (fgrp K) (map (@cnorm2 K) f1) t1 t2 (Some n) false inv1 None = Ok s1 /\
    cross_sum (fgrp K) (map (@cnorm2 K) f2) t2 t1 (Some n) false inv2 None = Ok s2 /\
    length d = n /\ length c = n /\ length s1 = n /\ length s2 = n /\
    forall k, (k < n)%nat ->
      nth k d (f0 K) = fsub K (fadd K (nth k s1 (f0 K)) (nth k s2 (f0 K))) (fmul K ftwo (nth k c (f0 K))).
Proof. exact (@difference_vs_correlation K f1 f2 t1 t2 n aligned inv1 inv2). Qed.
Print Assumptions C06_difference_from_correlation.
Theorem C06_difference_nonnegative (f1 f2 : list (Cx QcF)) t1 t2 n aligned out :
  valid_cross f1 f2 t1 t2 -> (t1 = None -> aligned = true -> n <= length f1 + 1)%nat ->
  cross_difference f1 f2 t1 t2 (Some n) aligned None = Ok out ->
  Forall (fun x : Qcanon.Qc => Qcanon.Qcle (Qcanon.Q2Qc (QArith_base.inject_Z 0)) x) out.
Proof. apply difference_nonneg. Qed.
Print Assumptions C06_difference_nonnegative.
Example C06_example :
  show_all show (cross_difference xf1 xf2 (Some xt1) (Some xt2) (Some 2%nat) true None) =
  Ok [(25, 1); (12, 1)]%Z.
Proof. reflexivity. Qed.
