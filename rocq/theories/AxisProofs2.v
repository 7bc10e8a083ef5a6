(** Arrays of any number of axes: correlations, differences and sums of every pixel. *)
From Coq Require Import String.
From Verif Require Import Base Kernels KernelProofs CoreModel CoreProofs CoreApi VecModel VecProofs FftModel NormModel CorrModel NormArrayModel NormArrayProofs AxisModel AxisProofs.
Open Scope string_scope.
Open Scope nat_scope.
Local Notation length := List.length.
Set Implicit Arguments.

(** The result [r] of a function of arrays with the time along [axis] agrees with the function [one] of series:
    every pixel is that of the series alone, the pixels keep their order, the delays are the last axis, and an
    error occurs only if a pixel alone is an error. *)
Definition every_pixel (A B : Type) (f1 f2 : nd A) (axis : Z) (aout : option (nd B)) (one : list A -> list A -> option (list B) -> res (list B)) (r : res (nd B)) : Prop :=
  forall a, norm_axis (rank f1) axis = Ok a -> shape f2 = shape f1 ->
    (forall o, aout = Some o -> exists m, shape o = (del a (shape f1) ++ [m])%list) ->
    let pixel p := one (series f1 a p) (series f2 a p) (option_map (fun o => row o p) aout) in
    (forall out, r = Ok out -> (exists m, shape out = (del a (shape f1) ++ [m])%list) /\ forall p, valid p (del a (shape f1)) -> pixel p = Ok (row out p)) /\
    ((exists p, valid p (del a (shape f1))) -> (forall p, valid p (del a (shape f1)) -> exists v, pixel p = Ok v) -> exists out, r = Ok out).

(** The axis of delays has the length given by [n], or that of the given output array *)
Definition sized (A B : Type) (f1 f2 : nd A) (axis : Z) (aout : option (nd B)) (n : option nat) (complex : bool) (r : res (nd B)) : Prop :=
  forall a m out, norm_axis (rank f1) axis = Ok a -> shape f2 = shape f1 ->
    (forall o, aout = Some o -> exists m, shape o = (del a (shape f1) ++ [m])%list) -> n = Some m -> r = Ok out -> shape out = (del a (shape f1) ++ [outlen aout m complex])%list.

Lemma every_pixel_run A B T (dA : A) (zero : B) complex always inspect over_last (kernel1 : T -> _) kernel2 f1 f2 axis aout n one :
  (forall ts L k x y o r, kernel1 ts L = Ok k -> k x y o = Ok r -> length r = length o) ->
  (forall ts L, over_last ts = false ->
    match kernel2 ts L with
    | Ok k2 => exists k1, kernel1 ts L = Ok k1 /\ forall w j m1 m2 mo, j < w -> rect w m1 -> rect w m2 -> rect w mo -> length m1 = L -> length m2 = L ->
                 length (k2 m1 m2 mo) = length mo /\ k1 (pixel dA j m1) (pixel dA j m2) (pixel zero j mo) = Ok (pixel zero j (k2 m1 m2 mo))
    | Raise e => kernel1 ts L = Raise e
    end) ->
  (forall x y o, length x = length y -> single zero complex inspect kernel1 x y o = one x y o) ->
  (forall L al ts n' m, inspect L al = Ok (ts, n') -> n = Some m -> n' = m) ->
  every_pixel f1 f2 axis aout one (run_nd zero complex always inspect over_last kernel1 kernel2 f1 f2 axis aout) /\
  sized f1 f2 axis aout n complex (run_nd zero complex always inspect over_last kernel1 kernel2 f1 f2 axis aout).
Proof.
  intros HK HV HS HN. split.
  2:{ intros a m out Ea E2 Ha En E. destruct (@run_pixels A B T dA zero complex always inspect over_last kernel1 kernel2 HK HV f1 f2 axis aout a (shape f1) eq_refl E2 Ea Ha) as (P1 & _). destruct (P1 out E) as ((ts & n' & EI & S1) & _). rewrite (HN _ _ _ _ _ EI En) in S1. exact S1. }
  intros a Ea E2 Ha. destruct (@run_pixels A B T dA zero complex always inspect over_last kernel1 kernel2 HK HV f1 f2 axis aout a (shape f1) eq_refl E2 Ea Ha) as (P1 & P2).
  assert (EQ : forall p, single zero complex inspect kernel1 (series f1 a p) (series f2 a p) (option_map (fun o => row o p) aout) = one (series f1 a p) (series f2 a p) (option_map (fun o => row o p) aout)).
  { intros p. apply HS. unfold series. rewrite !map_length, !seq_length, E2. reflexivity. }
  split.
  - intros out E. destruct (P1 out E) as ((ts & n' & _ & S1) & Q). split; [eexists; exact S1|]. intros p Hp. cbv zeta. rewrite <- EQ. apply Q. exact Hp.
  - intros X Y. apply P2; [exact X|]. intros p Hp. cbv zeta. rewrite EQ. apply Y. exact Hp.
Qed.
Lemma inspect_cross_n t1 t2 n full L al ts n' m : inspect_cross t1 t2 n full L al = Ok (ts, n') -> n = Some m -> n' = m.
Proof. intros E ->. unfold inspect_cross in E. destruct t1, t2; cbn [bind] in E; try discriminate; [|congruence]. destruct (_shift_cross _ _); [|discriminate]. cbn [bind] in E. congruence. Qed.
Lemma inspect_auto_n t n L al ts n' m : inspect_auto t n L al = Ok (ts, n') -> n = Some m -> n' = m.
Proof. intros E ->. unfold inspect_auto in E. destruct t; cbn [bind] in E; [|congruence]. destruct (zmin_list _); [|discriminate]. cbn [bind] in E. congruence. Qed.

(** ** Lengths *)
Lemma for_range_length B a b (body : nat -> list B -> list B) o : (forall i s, length (body i s) = length s) -> length (for_range a b body o) = length o.
Proof.
  intros H. unfold for_range. generalize (seq a (b - a)) as l. intros l. revert o. induction l as [|i l IH]; intros o; [reflexivity|]. cbn [fold_left]. rewrite IH. apply H.
Qed.
Ltac loops := intros; repeat (apply for_range_length; intros); try apply scatter_abs_length; try apply scatter_signed_length.
Section Lengths.
  Variable K : Fld.
  Lemma len_cross_corr x y t1 t2 o : length (@_cross_corr K x y t1 t2 o) = length o.
  Proof. unfold _cross_corr. loops; apply (scatter_abs_length (fmon K)). Qed.
  Lemma len_cross_corr_complex x y t1 t2 o : length (@_cross_corr_complex K x y t1 t2 o) = length o.
  Proof. unfold _cross_corr_complex. loops; apply (scatter_signed_length (cmon K)). Qed.
  Lemma len_cross_diff x y t1 t2 o : length (@_cross_diff K x y t1 t2 o) = length o.
  Proof. unfold _cross_diff. loops; apply (scatter_abs_length (fmon K)). Qed.
  Lemma len_auto_corr x t o : length (@_auto_corr K x t o) = length o.
  Proof. unfold _auto_corr. loops; apply (scatter_abs_length (fmon K)). Qed.
  Lemma len_auto_diff x t o : length (@_auto_diff K x t o) = length o.
  Proof. unfold _auto_diff. loops; apply (scatter_abs_length (fmon K)). Qed.
  Lemma len_auto_corr_complex x t o : length (@_auto_corr_complex K x t o) = length o.
  Proof. unfold _auto_corr_complex. apply for_range_length; intros i s. apply for_range_length; intros j s'. cbv zeta. destruct (_ <=? _)%Z; destruct (_ <? _)%Z; try reflexivity; apply (add_at_length (cmon K)). Qed.
End Lengths.
Section SumLengths.
  Variable G : QGrp.
  Lemma len_cross_sum f t1 t2 o : length (_cross_sum G f t1 t2 o) = length o.
  Proof. unfold _cross_sum. loops; apply (scatter_abs_length G). Qed.
  Lemma len_cross_sum_complex f t1 t2 o : length (_cross_sum_complex G f t1 t2 o) = length o.
  Proof. unfold _cross_sum_complex. loops; apply (scatter_signed_length G). Qed.
  Lemma len_sum_regular x o r : _cross_sum_regular G x o = Ok r -> length r = length o.
  Proof.
    unfold _cross_sum_regular. destruct (for_range_res _ _ _ _) as [st|] eqn:E; [|discriminate]. cbn [bind]. intros H. injection H as <-.
    apply (for_range_res_inv (fun st => length (snd st) = length o)) in E; [exact E|reflexivity|]. intros i [prev s] [prev' s'] Hs H. cbn [snd] in *. destruct (i =? 0).
    - injection H as <- <-. rewrite add_at_length. exact Hs.
    - destruct (read _ _ _); [|discriminate]. cbn [bind] in H. destruct (read _ _ _); [|discriminate]. cbn [bind] in H. injection H as <- <-. rewrite add_at_length. exact Hs.
  Qed.
  Lemma len_sum_complex_regular x o r : _cross_sum_complex_regular G x o = Ok r -> length r = length o.
  Proof.
    unfold _cross_sum_complex_regular. destruct (for_range_res _ _ _ _) as [st|] eqn:E; [|discriminate]. cbn [bind]. intros H. injection H as <-.
    apply (for_range_res_inv (fun st => length (snd st) = length o)) in E; [exact E|reflexivity|]. intros i [[p1 p2] s] [[p1' p2'] s'] Hs H. cbn [snd] in *. destruct (i =? 0).
    - injection H as <- <- <-. rewrite add_at_length. exact Hs.
    - destruct (read _ _ _); [|discriminate]. cbn [bind] in H. destruct (read _ _ _); [|discriminate]. cbn [bind] in H. injection H as <- <- <-. rewrite !add_at_length. exact Hs.
  Qed.
  Lemma len_sum_complex_regular_inverted x o r : _cross_sum_complex_regular_inverted G x o = Ok r -> length r = length o.
  Proof.
    unfold _cross_sum_complex_regular_inverted. destruct (for_range_res _ _ _ _) as [st|] eqn:E; [|discriminate]. cbn [bind]. intros H. injection H as <-.
    apply (for_range_res_inv (fun st => length (snd st) = length o)) in E; [exact E|reflexivity|]. intros i [[p1 p2] s] [[p1' p2'] s'] Hs H. cbn [snd] in *. destruct (i =? 0).
    - injection H as <- <- <-. rewrite add_at_length. exact Hs.
    - destruct (read _ _ _); [|discriminate]. cbn [bind] in H. destruct (read _ _ _); [|discriminate]. cbn [bind] in H. injection H as <- <- <-. rewrite !add_at_length. exact Hs.
  Qed.
  Lemma len_add_arrays a b : length b = length a -> length (add_arrays G a b) = length a.
  Proof. intros H. unfold add_arrays. rewrite map_length, combine_length, H. apply Nat.min_id. Qed.
  Lemma len_halve_tail o : length (halve_tail G o) = length o.
  Proof. destruct o; [reflexivity|]. cbn. rewrite map_length. reflexivity. Qed.
End SumLengths.
Section FftLengths.
  Variable K : Fld.
  Lemma len_folded M f _o o r : @add_folded K M f _o o = Ok r -> length r = length o.
  Proof. unfold add_folded. destruct (_ <? _); [discriminate|]. destruct (_ && _)%bool; [discriminate|]. intros H. injection H as <-. rewrite map_length, seq_length. reflexivity. Qed.
  Lemma len_signed M f _o o r : @add_signed K M f _o o = Ok r -> length r = length o.
  Proof. unfold add_signed. destruct (_ <? _); [discriminate|]. destruct (_ && _)%bool; [discriminate|]. intros H. injection H as <-. rewrite map_length, seq_length. reflexivity. Qed.
  Lemma len_plain M f _o o r : @add_plain K M f _o o = Ok r -> length r = length o.
  Proof. unfold add_plain. destruct (_ <? _); [discriminate|]. intros H. injection H as <-. rewrite map_length, seq_length. reflexivity. Qed.
End FftLengths.

(** ** The one-pixel functions *)
Lemma inspect_cross_one t1 t2 n full L alen : inspect_cross t1 t2 n full (Ok L) alen = _inspect_cross_arguments L L t1 t2 n alen full.
Proof. unfold inspect_cross, _inspect_cross_arguments. rewrite Nat.eqb_refl. cbn [negb]. destruct t1, t2; reflexivity. Qed.
Lemma inspect_auto_one t n L alen : inspect_auto t n (Ok L) alen = _inspect_auto_arguments L t n alen.
Proof. unfold inspect_auto, _inspect_auto_arguments. destruct t; reflexivity. Qed.
Lemma default_error A (z : A) o n c e : _default_out z o n c = Raise e -> e = ValueError.
Proof. unfold _default_out. destruct o; [discriminate|]. destruct c; [|discriminate]. destruct (n =? 0); [|discriminate]. congruence. Qed.
Lemma min_error t e : zmin_list t = Raise e -> e = ValueError.
Proof. destruct t; cbn; congruence. Qed.
Lemma max_error t e : zmax_list t = Raise e -> e = ValueError.
Proof. destruct t; cbn; congruence. Qed.
Lemma full_cross_error L ts e : _determine_full_length_cross L ts = Raise e -> e = ValueError.
Proof.
  destruct ts as [[t1 t2]|]; cbn; [|discriminate]. destruct (zmin_list t1) eqn:E1; cbn; [|intros H; injection H as <-; apply (min_error _ E1)]. destruct (zmax_list t1) eqn:E2; cbn; [|intros H; injection H as <-; apply (max_error _ E2)].
  destruct (zmin_list t2) eqn:E3; cbn; [|intros H; injection H as <-; apply (min_error _ E3)]. destruct (zmax_list t2) eqn:E4; cbn; [|intros H; injection H as <-; apply (max_error _ E4)]. discriminate.
Qed.
Lemma full_auto_error L t e : _determine_full_length_auto L t = Raise e -> e = ValueError.
Proof.
  destruct t as [t|]; cbn; [|discriminate]. destruct (zmin_list t) eqn:E1; cbn; [|intros H; injection H as <-; apply (min_error _ E1)]. destruct (zmax_list t) eqn:E2; cbn; [|intros H; injection H as <-; apply (max_error _ E2)]. discriminate.
Qed.

(** ** Correlations and differences *)
Theorem run_cross_pixels A B (dA : A) (zero : B) complex kreg kirr kvec contig f1 f2 t1 t2 axis n align aout :
  keeps_length2 kreg -> (forall x y t1 t2 o, length (kirr x y t1 t2 o) = length o) ->
  (forall w j m1 m2 t1 t2 mo, j < w -> rect w m1 -> rect w m2 -> rect w mo ->
     length (kvec m1 m2 t1 t2 mo) = length mo /\ pixel zero j (kvec m1 m2 t1 t2 mo) = kirr (pixel dA j m1) (pixel dA j m2) t1 t2 (pixel zero j mo)) ->
  every_pixel f1 f2 axis aout (fun x y o => run_cross zero complex kreg kirr x y t1 t2 n (_is_aligned contig (rank f1) axis align) o)
    (run_cross_nd zero complex kreg kirr kvec contig f1 f2 t1 t2 axis n align aout) /\
    sized f1 f2 axis aout n complex (run_cross_nd zero complex kreg kirr kvec contig f1 f2 t1 t2 axis n align aout).
  Proof.
  intros H1 H2 H3. apply (@every_pixel_run A B _ dA); set (al := _is_aligned contig (rank f1) axis align).
  - intros [[s1 s2]|] L k x y o r; unfold cross_k1.
    + destruct (_ && _)%bool; [|discriminate]. intros E; injection E as <-. intros E; injection E as <-. apply H2.
    + destruct al; intros E; injection E as <-; [apply H1|]. intros E; injection E as <-. apply H2.
  - intros [[s1 s2]|] L; unfold cross_k1, cross_k2, no_times.
    + intros _. destruct (_ && _)%bool; [|reflexivity]. eexists. split; [reflexivity|]. intros w j m1 m2 mo Hj R1 R2 Ro _ _. cbv beta. destruct (H3 w j m1 m2 s1 s2 mo Hj R1 R2 Ro) as (E1 & E2). split; [exact E1|]. rewrite E2. reflexivity.
    + intros ->. eexists. split; [reflexivity|]. intros w j m1 m2 mo Hj R1 R2 Ro _ _. cbv beta. destruct (H3 w j m1 m2 (arange L) (arange L) mo Hj R1 R2 Ro) as (E1 & E2). split; [exact E1|]. rewrite E2. reflexivity.
  - intros x y o E. unfold single, run_cross. rewrite inspect_cross_one, <- E. destruct (_inspect_cross_arguments _ _ _ _ _ _ _) as [[ts m]|]; [|reflexivity]. cbn [bind]. destruct (_default_out _ _ _ _); [|reflexivity]. cbn [bind]. unfold cross_k1. destruct ts as [[s1 s2]|].
    + destruct (_ && _)%bool; reflexivity.
    + destruct al; reflexivity.
  - intros L0 al0 ts0 n0 k0. apply inspect_cross_n.
Qed.
Theorem run_auto_pixels A B (dA : A) (zero : B) kreg kirr kvec contig f t axis n align aout :
  keeps_length1 kreg -> (forall x t o, length (kirr x t o) = length o) ->
  (forall w j m t mo, j < w -> rect w m -> rect w mo -> length (kvec m t mo) = length mo /\ pixel zero j (kvec m t mo) = kirr (pixel dA j m) t (pixel zero j mo)) ->
  every_pixel f f axis aout (fun x _ o => run_auto zero kreg kirr x t n (_is_aligned contig (rank f) axis align) o)
    (run_auto_nd zero kreg kirr kvec contig f t axis n align aout) /\
    sized f f axis aout n false (run_auto_nd zero kreg kirr kvec contig f t axis n align aout).
  Proof.
  intros H1 H2 H3. apply (@every_pixel_run A B _ dA); set (al := _is_aligned contig (rank f) axis align).
  - intros [s|] L k x y o r; unfold auto_k1.
    + destruct (_ =? _); [|discriminate]. intros E; injection E as <-. intros E; injection E as <-. apply H2.
    + destruct al; intros E; injection E as <-; [apply H1|]. intros E; injection E as <-. apply H2.
  - intros [s|] L; unfold auto_k1, auto_k2, no_times.
    + intros _. destruct (_ =? _); [|reflexivity]. eexists. split; [reflexivity|]. intros w j m1 m2 mo Hj R1 R2 Ro _ _. cbv beta. destruct (H3 w j m1 s mo Hj R1 Ro) as (E1 & E2). split; [exact E1|]. rewrite E2. reflexivity.
    + intros ->. eexists. split; [reflexivity|]. intros w j m1 m2 mo Hj R1 R2 Ro _ _. cbv beta. destruct (H3 w j m1 (arange L) mo Hj R1 Ro) as (E1 & E2). split; [exact E1|]. rewrite E2. reflexivity.
  - intros x y o _. unfold single, run_auto. rewrite inspect_auto_one. destruct (_inspect_auto_arguments _ _ _ _) as [[ts m]|]; [|reflexivity]. cbn [bind]. destruct (_default_out _ _ _ _); [|reflexivity]. cbn [bind]. unfold auto_k1. destruct ts as [s|].
    + destruct (_ =? _); reflexivity.
    + destruct al; reflexivity.
  - intros L0 al0 ts0 n0 k0. apply inspect_auto_n.
Qed.
Theorem run_cross_fft_pixels K B (zero : B) complex regular irregular (f1 f2 : nd (Cx K)) t1 t2 axis n aout :
  keeps_length2 regular -> (forall x y t1 t2 L o r, irregular x y t1 t2 L o = Ok r -> length r = length o) ->
  every_pixel f1 f2 axis aout (fun x y o => run_cross_fft zero complex regular irregular x y t1 t2 n o)
    (run_cross_fft_nd zero complex regular irregular f1 f2 t1 t2 axis n aout) /\
    sized f1 f2 axis aout n complex (run_cross_fft_nd zero complex regular irregular f1 f2 t1 t2 axis n aout).
  Proof.
  intros H1 H2. apply (@every_pixel_run _ B _ (c0 K)).
  - intros [[s1 s2]|] L k x y o r; unfold fft_cross_k1.
    + destruct (_determine_full_length_cross _ _); [|discriminate]. cbn [bind]. destruct (_ && _)%bool; [|discriminate]. intros E; injection E as <-. apply H2.
    + intros E; injection E as <-. apply H1.
  - discriminate.
  - intros x y o E. unfold single, run_cross_fft. rewrite inspect_cross_one, <- E. destruct (_inspect_cross_arguments _ _ _ _ _ _ _) as [[ts m]|]; [|reflexivity]. cbn [bind]. destruct (_default_out _ _ _ _) as [o'|e] eqn:ED; cbn [bind].
    + unfold fft_cross_k1. destruct ts as [[s1 s2]|]; [|reflexivity]. destruct (_determine_full_length_cross _ _); [|reflexivity]. cbn [bind]. destruct (_ && _)%bool; reflexivity.
    + destruct (_determine_full_length_cross _ _) eqn:EF; cbn [bind]; [reflexivity|]. rewrite (default_error _ _ _ _ ED), (full_cross_error _ _ EF). reflexivity.
  - intros L0 al0 ts0 n0 k0. apply inspect_cross_n.
Qed.
Theorem run_auto_fft_pixels K B (zero : B) regular irregular (f : nd (Cx K)) t axis n aout :
  keeps_length1 regular -> (forall x t L o r, irregular x t L o = Ok r -> length r = length o) ->
  every_pixel f f axis aout (fun x _ o => run_auto_fft zero regular irregular x t n o)
    (run_auto_fft_nd zero regular irregular f t axis n aout) /\
    sized f f axis aout n false (run_auto_fft_nd zero regular irregular f t axis n aout).
  Proof.
  intros H1 H2. apply (@every_pixel_run _ B _ (c0 K)).
  - intros [s|] L k x y o r; unfold fft_auto_k1.
    + destruct (_determine_full_length_auto _ _); [|discriminate]. cbn [bind]. destruct (_ =? _); [|discriminate]. intros E; injection E as <-. apply H2.
    + intros E; injection E as <-. apply H1.
  - discriminate.
  - intros x y o _. unfold single, run_auto_fft. rewrite inspect_auto_one. destruct (_inspect_auto_arguments _ _ _ _) as [[ts m]|]; [|reflexivity]. cbn [bind]. destruct (_default_out _ _ _ _) as [o'|e] eqn:ED; cbn [bind].
    + unfold fft_auto_k1. destruct ts as [s|]; [|reflexivity]. destruct (_determine_full_length_auto _ _); [|reflexivity]. cbn [bind]. destruct (_ =? _); reflexivity.
    + destruct (_determine_full_length_auto _ _) eqn:EF; cbn [bind]; [reflexivity|]. rewrite (default_error _ _ _ _ ED), (full_auto_error _ _ EF). reflexivity.
  - intros L0 al0 ts0 n0 k0. apply inspect_auto_n.
Qed.

(** ** Sums *)
Section Sums.
  Variable G : QGrp.
  Theorem cross_sum_pixels (f : nd G) t t_other axis n complex inv aout :
    every_pixel f f axis aout (fun x _ o => cross_sum G x t t_other n complex inv o) (cross_sum_nd G f t t_other axis n complex inv aout) /\
    sized f f axis aout n complex (cross_sum_nd G f t t_other axis n complex inv aout).
  Proof.
    apply (@every_pixel_run _ _ _ (m0 G)).
    - intros [[s1 s2]|] L k x y o r; unfold sum_k1.
      + destruct (inverted inv (s1, s2)) as [u u']. destruct (_ =? _); [|discriminate]. intros E; injection E as <-. intros E; injection E as <-. destruct complex; [apply len_cross_sum_complex|apply len_cross_sum].
      + intros E; injection E as <-. destruct complex; [destruct inv|]; [apply len_sum_complex_regular_inverted|apply len_sum_complex_regular|apply len_sum_regular].
    - intros [[s1 s2]|] L; unfold sum_k1, sum_k2; [|discriminate]. intros _. destruct (inverted inv (s1, s2)) as [u u']. destruct (Nat.eqb_spec L (length u)) as [HL|]; [|reflexivity].
      eexists. split; [reflexivity|]. intros w j m1 m2 mo Hj R1 _ Ro L1 _. cbv beta. destruct complex.
      + destruct (@_cross_sum_complex_vec_pixel G w j Hj m1 u u' mo (length mo) R1 (eq_sym (eq_trans L1 HL)) (Logic.conj Ro eq_refl)) as ((_ & E1) & E2). split; [exact E1|]. rewrite E2. reflexivity.
      + destruct (@_cross_sum_vec_pixel G w j Hj m1 u u' mo (length mo) R1 (eq_sym (eq_trans L1 HL)) (Logic.conj Ro eq_refl)) as ((_ & E1) & E2). split; [exact E1|]. rewrite E2. reflexivity.
    - intros x y o _. unfold single, cross_sum. rewrite inspect_cross_one. destruct (_inspect_cross_arguments _ _ _ _ _ _ _) as [[ts m]|]; [|reflexivity]. cbn [bind]. destruct (_default_out _ _ _ _); [|reflexivity]. cbn [bind]. unfold sum_k1. destruct ts as [[s1 s2]|]; [|reflexivity]. unfold inverted. cbn [fst snd]. destruct inv; destruct (_ =? _); reflexivity.
    - intros L0 al0 ts0 n0 k0. apply inspect_cross_n.
Qed.
  Lemma pixel_add_rows w j a b : j < w -> rect w a -> rect w b -> pixel (m0 G) j (add_rows G a b) = add_arrays G (pixel (m0 G) j a) (pixel (m0 G) j b).
  Proof.
    intros Hj Ra. revert b. induction Ra as [|x a Hx Ra IH]; intros b Rb; [reflexivity|]. destruct Rb as [|y b Hy Rb]; [reflexivity|]. cbn [add_rows combine map pixel add_arrays fst snd]. f_equal; [|apply IH; exact Rb].
    unfold add_arrays. rewrite (nth_indep _ (m0 G) (madd G (fst (m0 G, m0 G)) (snd (m0 G, m0 G)))) by (rewrite map_length, combine_length, Hx, Hy, Nat.min_id; exact Hj). rewrite (map_nth (fun p => madd G (fst p) (snd p))). rewrite combine_nth by congruence. reflexivity.
  Qed.
  Lemma pixel_halve_rows w j a : j < w -> rect w a -> pixel (m0 G) j (halve_rows G a) = halve_tail G (pixel (m0 G) j a).
  Proof.
    intros Hj Ra. destruct Ra as [|x a Hx Ra]; [reflexivity|]. cbn [halve_rows halve_tail pixel map]. f_equal. unfold pixel. rewrite !map_map. apply map_ext_in. intros r Hr. rewrite Forall_forall in Ra. rewrite (nth_indep _ (m0 G) (ahalf G (m0 G))) by (rewrite map_length, (Ra r Hr); exact Hj). apply map_nth.
  Qed.
  Lemma rect_halve w a : rect w a -> rect w (halve_rows G a).
  Proof. intros Ra. destruct Ra as [|x a Hx Ra]; [constructor|]. constructor; [exact Hx|]. apply Forall_forall. intros r Hr. apply in_map_iff in Hr. destruct Hr as (u & <- & Hu). rewrite map_length. rewrite Forall_forall in Ra. apply Ra. exact Hu. Qed.
  Lemma rect_zero w a : rect w a -> rect w (zero_rows G a).
  Proof. intros Ra. apply Forall_forall. intros r Hr. apply in_map_iff in Hr. destruct Hr as (u & <- & Hu). rewrite map_length. unfold rect in Ra. rewrite Forall_forall in Ra. apply Ra. exact Hu. Qed.
  Lemma pixel_zero w j (a : list (list G)) : rect w a -> pixel (m0 G) j (zero_rows G a) = repeat (m0 G) (length a).
  Proof.
    intros _. induction a as [|x a IH]; [reflexivity|]. cbn [zero_rows map pixel length repeat]. f_equal; [|exact IH]. clear. revert j. induction x as [|y x IH]; intros [|j]; cbn; try reflexivity. apply IH.
  Qed.
  Theorem auto_sum_pixels (f : nd G) t axis n aout :
    every_pixel f f axis aout (fun x _ o => auto_sum G x t n o) (auto_sum_nd G f t axis n aout) /\
    sized f f axis aout n false (auto_sum_nd G f t axis n aout).
  Proof.
    apply (@every_pixel_run _ _ _ (m0 G)).
    - intros [s|] L k x y o r; unfold asum_k1.
      + destruct (_ =? _); [|discriminate]. intros E; injection E as <-. intros E; injection E as <-. apply len_add_arrays. rewrite len_halve_tail, len_cross_sum. apply repeat_length.
      + intros E; injection E as <-. destruct (_cross_sum_regular _ _ _) eqn:ES; [|discriminate]. cbn [bind]. intros E; injection E as <-. apply len_add_arrays. rewrite len_halve_tail, (len_sum_regular _ _ _ ES). apply repeat_length.
    - intros [s|] L; unfold asum_k1, asum_k2; [|discriminate]. intros _. destruct (Nat.eqb_spec L (length s)) as [HL|]; [|reflexivity].
      eexists. split; [reflexivity|]. intros w j m1 m2 mo Hj R1 _ Ro L1 _. cbv beta. pose proof (@rect_zero w mo Ro) as Rz.
      destruct (@_cross_sum_vec_pixel G w j Hj m1 s s (zero_rows G mo) (length (zero_rows G mo)) R1 (eq_sym (eq_trans L1 HL)) (Logic.conj Rz eq_refl)) as ((RV & E1) & E2).
      unfold zero_rows at 2 in E1. rewrite map_length in E1.
      split.
      + unfold add_rows. rewrite map_length, combine_length. replace (length (halve_rows G _)) with (length mo); [apply Nat.min_id|]. rewrite <- E1. destruct (_cross_sum_vec _ _ _ _ _); [reflexivity|]. cbn. rewrite map_length. reflexivity.
      + rewrite (@pixel_add_rows w j _ _ Hj Ro (@rect_halve w _ RV)), (@pixel_halve_rows w j _ Hj RV), E2, (@pixel_zero w j mo Ro), pixel_length. reflexivity.
    - intros x y o _. unfold single, auto_sum. rewrite inspect_auto_one. destruct (_inspect_auto_arguments _ _ _ _) as [[ts m]|]; [|reflexivity]. cbn [bind]. destruct (_default_out _ _ _ _); [|reflexivity]. cbn [bind]. unfold asum_k1. destruct ts as [s|]; [|reflexivity]. destruct (_ =? _); reflexivity.
    - intros L0 al0 ts0 n0 k0. apply inspect_auto_n.
Qed.

  Variable K : Fld.
  Variable W : nat -> Cx K.
  Variable toC : G -> Cx K.
  Variable back : Cx K -> G.
  Theorem cross_sum_fft_pixels (f : nd G) t t_other axis n complex inv aout :
    every_pixel f f axis aout (fun x _ o => run_cross_sum_fft W G toC back x t t_other n complex inv o) (cross_sum_fft_nd G W toC back f t t_other axis n complex inv aout) /\
    sized f f axis aout n complex (cross_sum_fft_nd G W toC back f t t_other axis n complex inv aout).
  Proof.
    apply (@every_pixel_run _ _ _ (m0 G)).
    - intros [[s1 s2]|] L k x y o r; unfold fft_sum_k1; [|discriminate]. destruct (_determine_full_length_cross _ _); [|discriminate]. cbn [bind]. destruct (inverted inv (s1, s2)) as [u u']. destruct (_fill_ones _ _); [|discriminate]. cbn [bind]. destruct (_fft _ _); [|discriminate]. cbn [bind]. destruct (_ =? _); [|discriminate].
      intros E; injection E as <-. destruct complex; [unfold _cross_sum_complex_fft|unfold _cross_sum_fft]; (destruct (sum_spectra _ _ _ _ _); [|discriminate]); cbn [bind]; [apply len_signed|apply len_folded].
    - discriminate.
    - intros x y o _. unfold single, run_cross_sum_fft. rewrite inspect_cross_one. destruct (_inspect_cross_arguments _ _ _ _ _ _ _) as [[ts m]|]; [|reflexivity]. cbn [bind]. destruct (_default_out _ _ _ _) as [o'|e] eqn:ED; cbn [bind].
      + unfold fft_sum_k1. destruct ts as [[s1 s2]|]; [|reflexivity]. destruct (_determine_full_length_cross _ _); [|reflexivity]. cbn [bind]. unfold inverted. cbn [fst snd]. destruct inv; (destruct (_fill_ones _ _); [|reflexivity]); cbn [bind]; (destruct (_fft _ _); [|reflexivity]); cbn [bind]; destruct (_ =? _); reflexivity.
      + destruct (_determine_full_length_cross _ _) eqn:EF; cbn [bind]; [reflexivity|]. rewrite (default_error _ _ _ _ ED), (full_cross_error _ _ EF). reflexivity.
    - intros L0 al0 ts0 n0 k0. apply inspect_cross_n.
Qed.
  Theorem auto_sum_fft_pixels (f : nd G) t axis n aout :
    every_pixel f f axis aout (fun x _ o => run_auto_sum_fft W G toC back x t n o) (auto_sum_fft_nd G W toC back f t axis n aout) /\
    sized f f axis aout n false (auto_sum_fft_nd G W toC back f t axis n aout).
  Proof.
    apply (@every_pixel_run _ _ _ (m0 G)).
    - intros [s|] L k x y o r; unfold fft_asum_k1; [|discriminate]. destruct (_determine_full_length_auto _ _); [|discriminate]. cbn [bind]. destruct (_fill_ones _ _); [|discriminate]. cbn [bind]. destruct (_fft _ _); [|discriminate]. cbn [bind]. destruct (_ =? _); [|discriminate].
      intros E; injection E as <-. unfold _cross_sum_fft. destruct (sum_spectra _ _ _ _ _); [|discriminate]. cbn [bind]. destruct (add_folded _ _ _ _) eqn:EF; [|discriminate]. cbn [bind]. intros E; injection E as <-. apply len_add_arrays. rewrite len_halve_tail, (len_folded _ _ _ _ EF). apply repeat_length.
    - discriminate.
    - intros x y o _. unfold single, run_auto_sum_fft. rewrite inspect_auto_one. destruct (_inspect_auto_arguments _ _ _ _) as [[ts m]|]; [|reflexivity]. cbn [bind]. destruct (_default_out _ _ _ _) as [o'|e] eqn:ED; cbn [bind].
      + unfold fft_asum_k1. destruct ts as [s|]; [|reflexivity]. destruct (_determine_full_length_auto _ _); [|reflexivity]. cbn [bind]. destruct (_fill_ones _ _); [|reflexivity]. cbn [bind]. destruct (_fft _ _); [|reflexivity]. cbn [bind]. destruct (_ =? _); reflexivity.
      + destruct (_determine_full_length_auto _ _) eqn:EF; cbn [bind]; [reflexivity|]. rewrite (default_error _ _ _ _ ED), (full_auto_error _ _ EF). reflexivity.
    - intros L0 al0 ts0 n0 k0. apply inspect_auto_n.
Qed.
End Sums.
