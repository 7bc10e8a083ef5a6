(** Properties C13 and C14: the FFT-based functions of core.py.  [W N] is the number
    the FFT library uses as exp(-2*pi*i/N); the theorems hold for every field and
    every such number that is a primitive root of unity with conj(w) = 1/w
    ([is_root]).  The corollaries named [..._reals] are about the real numbers of the
    standard library and the actual number exp(-2*pi*i/N) ([Rroot]). *)
From Verif Require Import Base Kernels KernelProofs PairSpec CoreModel CoreProofs CoreProofs2 CoreProofs3 CoreApi
  FftModel FftProofs FftProofs2 FftProofs3 FftReals FftApi Examples.
Set Implicit Arguments.

(** Roots of unity among the complex rationals. *)
Definition Wq (N : nat) : Cx QcF := match N with 2 => cz (-1) 0 | 4 => cz 0 (-1) | _ => cz 1 0 end.
Local Ltac cq := match goal with |- ?a = ?b => apply (f_equal2 pair); apply Qcanon.Qc_is_canon; reflexivity end.
Local Ltac nodup := repeat (constructor; [cbv; intuition discriminate|]); constructor.
Lemma Wq4 : is_root 4 (Wq 4).
Proof.
  split; [cq|split; [cq|]]. intros m Hm.
  assert (m = 1 \/ m = 2 \/ m = 3)%nat as [->|[->| ->]] by lia; cq.
Qed.
Lemma Wq2 : is_root 2 (Wq 2).
Proof. split; [cq|split; [cq|]]. intros m Hm. assert (m = 1)%nat as -> by lia; cq. Qed.

(** Signals with two distinct, unsorted times. *)
Definition yf1 := [cz 1 2; cz 3 (-1)].
Definition yf2 := [cz 2 0; cz 1 1].
Definition yt1 := [6; 5]%Z.
Definition yt2 := [5; 6]%Z.
Lemma y_covers : covers (samples yf1 (Some yt1)) (samples yf2 (Some yt2)) 2.
Proof.
  split.
  - intros p Hp. cbn in Hp. destruct Hp as [<-|[<-|[<-|[<-|[]]]]]; cbn; lia.
  - exists ((cz 1 2, 6%Z), (cz 2 0, 5%Z)). split; [cbn; auto|reflexivity].
Qed.

(* ------------------------------------------------------------------ *)
(** * C13 *)
Theorem C13_cross_correlate_fft (K : Fld) (W : nat -> Cx K) f1 f2 t1 t2 L n aligned aout :
  valid_cross f1 f2 t1 t2 -> f1 <> [] -> distinct (samples f1 t1) -> distinct (samples f2 t2) ->
  covers (samples f1 t1) (samples f2 t2) L -> is_root (L * 2) (W (L * 2)%nat) ->
  (0 < output_length n aout L <= L + 1)%nat ->
  cross_correlate_fft W f1 f2 t1 t2 n aout = cross_correlate f1 f2 t1 t2 n aligned aout.
Proof. intros HV Hne D1 D2 HC Hw. exact (@cross_correlate_fft_direct K W f1 f2 t1 t2 L HV Hne D1 D2 HC Hw n aligned aout). Qed.
Print Assumptions C13_cross_correlate_fft.

Theorem C13_cross_correlate_fft_complex (K : Fld) (W : nat -> Cx K) f1 f2 t1 t2 L n aligned aout m :
  valid_cross f1 f2 t1 t2 -> f1 <> [] -> distinct (samples f1 t1) -> distinct (samples f2 t2) ->
  covers (samples f1 t1) (samples f2 t2) L -> is_root (L * 2) (W (L * 2)%nat) ->
  output_length n aout L = match aout with Some _ => (2 * m - 1)%nat | None => m end -> (0 < m <= L + 1)%nat ->
  cross_correlate_fft_complex W f1 f2 t1 t2 n aout = cross_correlate_complex f1 f2 t1 t2 n aligned aout.
Proof.
  intros HV Hne D1 D2 HC Hw.
  exact (@cross_correlate_fft_complex_direct K W f1 f2 t1 t2 L HV Hne D1 D2 HC Hw n aligned aout m).
Qed.
Print Assumptions C13_cross_correlate_fft_complex.

Theorem C13_auto_correlate_fft (K : Fld) (W : nat -> Cx K) f t L n aligned aout aoutc :
  valid_auto f t -> f <> [] -> distinct (samples f t) ->
  covers (samples f t) (samples f t) L -> is_root (L * 2) (W (L * 2)%nat) ->
  (output_length n aout L <= L + 1)%nat -> (output_length n aoutc L <= L + 1)%nat ->
  auto_correlate_fft W f t n aout = auto_correlate f t n aligned aout /\
  auto_correlate_fft_complex W f t n aoutc = auto_correlate_complex f t n aligned aoutc.
Proof.
  intros HV Hne D HC Hw H1 H2. split.
  - exact (@auto_correlate_fft_direct K W f t L HV Hne D HC Hw n aligned aout H1).
  - exact (@auto_correlate_fft_complex_direct K W f t L HV Hne D HC Hw n aligned aoutc H2).
Qed.
Print Assumptions C13_auto_correlate_fft.

Example C13_hypotheses : valid_cross yf1 yf2 (Some yt1) (Some yt2) /\ yf1 <> [] /\
  distinct (samples yf1 (Some yt1)) /\ distinct (samples yf2 (Some yt2)) /\
  covers (samples yf1 (Some yt1)) (samples yf2 (Some yt2)) 2 /\ is_root (2 * 2) (Wq (2 * 2)).
Proof.
  repeat split; try discriminate; try apply y_covers; try apply Wq4;
  nodup.
Qed.
Example C13_example : show_all show (cross_correlate_fft Wq yf1 yf2 (Some yt1) (Some yt2) (Some 3%nat) None) =
  Ok [(9, 1); (4, 1); (0, 1)]%Z.
Proof. vm_compute. reflexivity. Qed.

(** The actual root of unity, over the real numbers. *)
Theorem C13_fft_equals_direct_reals f1 f2 t1 t2 L n aligned aout :
  valid_cross f1 f2 t1 t2 -> f1 <> [] -> distinct (samples f1 t1) -> distinct (samples f2 t2) ->
  covers (samples f1 t1) (samples f2 t2) L -> (0 < output_length n aout L <= L + 1)%nat ->
  cross_correlate_fft Rroot f1 f2 t1 t2 n aout = cross_correlate f1 f2 t1 t2 n aligned aout.
Proof.
  intros HV Hne D1 D2 HC Ho. assert (0 < L * 2)%nat as HL by (destruct HC as [_ (p & _ & Hp)]; lia).
  exact (@C13_cross_correlate_fft RF Rroot f1 f2 t1 t2 L n aligned aout HV Hne D1 D2 HC (Rroot_is_root HL) Ho).
Qed.
Print Assumptions C13_fft_equals_direct_reals.

(** What the functions compute for any times and any output length: a circular
    correlation with period 2L, in which later samples replace earlier ones taken
    at the same time. *)
Theorem C13_fft_is_circular (K : Fld) (W : nat -> Cx K) f1 f2 t1 t2 L n out :
  valid_cross f1 f2 t1 t2 -> f1 <> [] ->
  covers (samples f1 t1) (samples f2 t2) L -> is_root (L * 2) (W (L * 2)%nat) ->
  let c m := Sum (cmon K) (pairs_circular (L * 2) m (keep_last (samples f1 t1)) (keep_last (samples f2 t2))) (@cx_prod K) in
  ((0 < length out <= L * 2)%nat -> exists r,
    cross_correlate_fft W f1 f2 t1 t2 n (Some out) = Ok r /\ length r = length out /\
    forall k, (k < length out)%nat -> nth k r (f0 K) = fadd K (nth k out (f0 K))
      (if (k =? 0)%nat then cre (c 0%Z) else fadd K (cre (c (Z.of_nat k))) (cre (c (- Z.of_nat k)%Z)))) /\
  ((L * 2 < length out)%nat -> cross_correlate_fft W f1 f2 t1 t2 n (Some out) = Raise ValueError).
Proof.
  intros HV Hne HC Hw c. split.
  - intros Ho. eexists. split; [exact (@cross_correlate_fft_circular K W f1 f2 t1 t2 n out L HV Hne HC Hw Ho)|].
    split; [apply (@KernelProofs.plus_cells_length (fmon K))|].
    intros k Hk. etransitivity; [exact (@KernelProofs.nth_plus_cells (fmon K) out _ k Hk)|]. reflexivity.
  - intros Ho. exact (@cross_correlate_fft_too_long K W f1 f2 t1 t2 n out L HV Hne HC Hw Ho).
Qed.
Print Assumptions C13_fft_is_circular.

(** No data, or no output: what the direct functions accept (with an empty result) is refused, but for one frame. *)
Theorem C13_empty (K : Fld) (W : nat -> Cx K) f1 f2 n aout : length f1 = length f2 ->
  (f1 = [] -> cross_correlate_fft W f1 f2 None None n aout = Raise ValueError /\ auto_correlate_fft W f1 None n aout = Raise ValueError) /\
  (length f1 = 1%nat -> cross_correlate_fft W f1 f2 None None (Some 0%nat) None = Ok []) /\
  ((2 <= length f1)%nat -> cross_correlate_fft W f1 f2 None None (Some 0%nat) None = Raise ValueError) /\
  cross_correlate f1 f2 None None (Some 0%nat) false None = Ok [].
Proof.
  intros HL. assert (HP : forall f : list (Cx K), length (pad2 f) = (2 * length f)%nat) by (intros f; unfold pad2; rewrite app_length, repeat_length; lia).
  assert (HS : forall f g : list (Cx K), length f = length g -> f <> [] -> exists o, correlate_spectra W (pad2 f) (pad2 g) = Ok o /\ length o = (2 * length f)%nat).
  { intros f g E N. unfold correlate_spectra. assert (F : forall h : list (Cx K), length h <> 0%nat -> exists y, _fft W (pad2 h) = Ok y /\ length y = (2 * length h)%nat).
    { intros h Hh. unfold _fft. destruct (pad2 h) eqn:Q; [pose proof (HP h) as Q'; rewrite Q in Q'; cbn in Q'; lia|]. rewrite <- Q. eexists. split; [reflexivity|]. rewrite map_length, seq_length. apply HP. }
    assert (Nf : length f <> 0%nat) by (destruct f; [congruence|discriminate]). destruct (F f Nf) as (x & -> & Lx). destruct (F g ltac:(lia)) as (y & -> & Ly). cbn [bind].
    unfold _ifft. destruct (mul_arrays (map conj x) y) eqn:Q.
    { apply (f_equal (@length _)) in Q. unfold mul_arrays in Q. rewrite map_length, combine_length, map_length in Q. cbn in Q. lia. }
    rewrite <- Q. eexists. split; [reflexivity|]. rewrite map_length, seq_length. unfold mul_arrays. rewrite map_length, combine_length, map_length. lia. }
  split; [|split; [|split]].
  - intros ->. destruct f2; [|discriminate]. split.
    + unfold cross_correlate_fft, run_cross_fft, _inspect_cross_arguments. destruct n, aout; reflexivity.
    + unfold auto_correlate_fft, run_auto_fft, _inspect_auto_arguments. destruct n, aout; reflexivity.
  - intros H1. destruct (HS f1 f2 HL) as (o & E & Lo); [intros ->; discriminate|]. unfold cross_correlate_fft, run_cross_fft, _inspect_cross_arguments. rewrite HL, Nat.eqb_refl. cbn [negb bind _determine_full_length_cross _default_out repeat].
    unfold _cross_corr_fft_regular. rewrite E. cbn [bind]. unfold add_folded. rewrite Lo, H1. reflexivity.
  - intros H2. destruct (HS f1 f2 HL) as (o & E & Lo); [intros ->; cbn in H2; lia|]. unfold cross_correlate_fft, run_cross_fft, _inspect_cross_arguments. rewrite HL, Nat.eqb_refl. cbn [negb bind _determine_full_length_cross _default_out repeat].
    unfold _cross_corr_fft_regular. rewrite E. cbn [bind]. unfold add_folded. rewrite Lo. cbn [length Nat.ltb Nat.leb Nat.eqb andb]. destruct (length f1) as [|[|l]]; [lia|lia|]. replace (2 * S (S l))%nat with (S (S (S (S (2 * l))))) by lia. reflexivity.
  - unfold cross_correlate, run_cross, _inspect_cross_arguments. rewrite HL, Nat.eqb_refl. cbn [negb bind]. unfold _default_out. cbn [repeat bind]. f_equal. apply length_zero_iff_nil. unfold _cross_corr.
    apply (@for_range_inv _ (fun _ s => length s = 0%nat)); [lia|reflexivity|]. intros i s _ Hs. apply (@for_range_inv _ (fun _ s => length s = 0%nat)); [lia|exact Hs|]. intros j s' _ Hs'. rewrite scatter_abs_length. exact Hs'.
Qed.
Print Assumptions C13_empty.
Example C13_circular_example :
  show_all show (cross_correlate_fft Wq yf1 yf2 (Some yt1) (Some yt2) (Some 4%nat) None) =
  Ok [(9, 1); (4, 1); (0, 1); (4, 1)]%Z.
Proof. vm_compute. reflexivity. Qed.

(** Neither hypothesis can be dropped: a longer output wraps around ... *)
Theorem C13_long_output_refuted : exists f1 f2 t1 t2 n r r',
  valid_cross f1 f2 t1 t2 /\ distinct (samples f1 t1) /\ distinct (samples f2 t2) /\
  covers (samples f1 t1) (samples f2 t2) 2 /\ is_root 4 (Wq 4) /\
  show_all show (cross_correlate_fft Wq f1 f2 t1 t2 (Some n) None) = Ok r /\
  show_all show (cross_correlate f1 f2 t1 t2 (Some n) true None) = Ok r' /\ r <> r'.
Proof.
  exists yf1, yf2, (Some yt1), (Some yt2), 4%nat, [(9, 1); (4, 1); (0, 1); (4, 1)]%Z, [(9, 1); (4, 1); (0, 1); (0, 1)]%Z.
  split; [repeat split; discriminate|]. split; [nodup|]. split; [nodup|].
  split; [apply y_covers|]. split; [apply Wq4|].
  split; [vm_compute; reflexivity|]. split; [vm_compute; reflexivity|discriminate].
Qed.
Print Assumptions C13_long_output_refuted.

(** ... and of several samples with the same time all but the last are lost, as the
    FFT functions write them into one cell. *)
Theorem C13_repeated_times_refuted : exists f t r r',
  valid_auto f (Some t) /\ covers (samples f (Some t)) (samples f (Some t)) 2 /\
  show_all show (auto_correlate_fft Wq f (Some t) None None) = Ok r /\
  show_all show (auto_correlate f (Some t) None true None) = Ok r' /\ r <> r'.
Proof.
  exists [cz 1 0; cz 2 0; cz 3 0], [0; 0; 1]%Z, [(13, 1); (6, 1)]%Z, [(16, 1); (9, 1)]%Z.
  split; [repeat split; discriminate|]. split; [split|].
  - intros p Hp. cbn in Hp. repeat (destruct Hp as [<-|Hp]; [cbn; lia|]). destruct Hp.
  - exists ((cz 1 0, 0%Z), (cz 3 0, 1%Z)). split; [cbn; tauto|reflexivity].
  - split; [vm_compute; reflexivity|]. split; [vm_compute; reflexivity|discriminate].
Qed.
Print Assumptions C13_repeated_times_refuted.

(* ------------------------------------------------------------------ *)
(** * C14 *)

(** Complex data; [complex] selects the output indexed by signed delays. *)
Theorem C14_cross_sum_fft_complex (K : Fld) (W : nat -> Cx K) (f : list (Cx K)) t t_other L n (complex inv : bool) aout m :
  valid_sum f (Some t) (Some t_other) -> NoDup t -> NoDup t_other ->
  covers (combine f t) (times t_other) L -> is_root (L * 2) (W (L * 2)%nat) ->
  output_length n aout L = match aout with Some _ => if complex then (2 * m - 1)%nat else m | None => m end ->
  (0 < m <= L + 1)%nat ->
  cross_sum_fft_complex W f (Some t) (Some t_other) n complex inv aout =
  cross_sum (cgrp K) f (Some t) (Some t_other) n complex inv aout.
Proof.
  intros HV D1 D2 HC Hw.
  exact (@cross_sum_fft_direct K W (cgrp K) (fun z => z) (@conj K) (@conj_0 K) (@conj_add K) (@conj_conj K)
           f t t_other L HV D1 D2 HC Hw n complex inv aout m).
Qed.
Print Assumptions C14_cross_sum_fft_complex.

(** Real data *)
Theorem C14_cross_sum_fft_real (K : Fld) (W : nat -> Cx K) (f : list K) t t_other L n (complex inv : bool) aout m :
  valid_sum f (Some t) (Some t_other) -> NoDup t -> NoDup t_other ->
  covers (combine f t) (times t_other) L -> is_root (L * 2) (W (L * 2)%nat) ->
  output_length n aout L = match aout with Some _ => if complex then (2 * m - 1)%nat else m | None => m end ->
  (0 < m <= L + 1)%nat ->
  cross_sum_fft_real W f (Some t) (Some t_other) n complex inv aout =
  cross_sum (fgrp K) f (Some t) (Some t_other) n complex inv aout.
Proof.
  intros HV D1 D2 HC Hw.
  exact (@cross_sum_fft_direct K W (fgrp K) (@cofre K) (@cre K) eq_refl (fun _ _ => eq_refl) (fun _ => eq_refl)
           f t t_other L HV D1 D2 HC Hw n complex inv aout m).
Qed.
Print Assumptions C14_cross_sum_fft_real.

Theorem C14_auto_sum_fft (K : Fld) (W : nat -> Cx K) (f : list K) (fc : list (Cx K)) t L n aout aoutc :
  NoDup t -> is_root (L * 2) (W (L * 2)%nat) ->
  (valid_auto f (Some t) -> covers (combine f t) (combine f t) L ->
   (0 < output_length n aout L <= L + 1)%nat ->
   auto_sum_fft_real W f (Some t) n aout = auto_sum (fgrp K) f (Some t) n aout) /\
  (valid_auto fc (Some t) -> covers (combine fc t) (combine fc t) L ->
   (0 < output_length n aoutc L <= L + 1)%nat ->
   auto_sum_fft_complex W fc (Some t) n aoutc = auto_sum (cgrp K) fc (Some t) n aoutc).
Proof.
  intros D Hw. split; intros HV HC.
  - exact (@auto_sum_fft_direct K W (fgrp K) (@cofre K) (@cre K) eq_refl (fun _ _ => eq_refl) (fun _ => eq_refl)
           f t L HV D HC Hw n aout).
  - exact (@auto_sum_fft_direct K W (cgrp K) (fun z => z) (@conj K) (@conj_0 K) (@conj_add K) (@conj_conj K)
           fc t L HV D HC Hw n aoutc).
Qed.
Print Assumptions C14_auto_sum_fft.

(** Data without times are rejected. *)
Theorem C14_regular_rejected (K : Fld) (W : nat -> Cx K) (f : list K) n (complex inv : bool) aout :
  cross_sum_fft_real W f None None n complex inv aout = Raise ValueError /\
  auto_sum_fft_real W f None n aout = Raise ValueError.
Proof.
  unfold cross_sum_fft_real, auto_sum_fft_real, run_cross_sum_fft, run_auto_sum_fft,
    _inspect_cross_arguments, _inspect_auto_arguments. cbn [bind]. rewrite Nat.eqb_refl. cbn [negb].
  split; (destruct n as [n|]; [|destruct aout as [o|]]);
    cbn [bind option_map _determine_full_length_cross _determine_full_length_auto]; unfold _default_out;
    try (destruct aout as [o|]; cbn [bind]); try reflexivity; try (destruct complex; cbn [bind]; try reflexivity);
    repeat match goal with |- context [if (?x =? 0)%nat then _ else _] => destruct (x =? 0)%nat end; reflexivity.
Qed.
Print Assumptions C14_regular_rejected.

Example C14_hypotheses : valid_sum yf1 (Some yt1) (Some yt2) /\ NoDup yt1 /\ NoDup yt2 /\
  covers (combine yf1 yt1) (times yt2) 2.
Proof.
  repeat split; try discriminate; try (nodup).
  - intros p Hp. cbn in Hp. destruct Hp as [<-|[<-|[<-|[<-|[]]]]]; cbn; lia.
  - exists ((cz 1 2, 6%Z), (tt, 5%Z)). split; [cbn; auto|reflexivity].
Qed.
Example C14_example :
  show_all showc (cross_sum_fft_complex Wq yf1 (Some yt1) (Some yt2) (Some 2%nat) true true None) =
    Ok [((4, 1), (1, 1)); ((1, 1), (2, 1)); ((3, 1), (-1, 1))]%Z /\
  show_all showc (cross_sum_fft_complex Wq yf1 (Some yt1) (Some yt2) (Some 2%nat) false true None) =
    Ok [((4, 1), (1, 1)); ((4, 1), (1, 1))]%Z.
Proof. split; vm_compute; reflexivity. Qed.
