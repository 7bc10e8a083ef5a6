(** C100: Signals multiplied by a number, and flickering light. *)
From Coq Require Import String Field ZifyBool ZifyNat.
From Verif Require Import Base Ordered Kernels PairSpec KernelProofs PairLemmas CoreModel CoreProofs CoreProofs3 NormModel NormSpec
  FftModel FftProofs CorrModel CorrSpec CorrProofs CorrProofs2 NormProofs NormProofs2 NormApi NormAuto NormMap NormApi2 NormMode NormMode2 NormMode3 NormApi3
  StatsModel StreamSpec Prop_Stats TurnProofs TurnData TurnApi GainData GainApi VideoModel MapModel MapProofs Fft2Model Fft2Proofs Prop_Fft Prop_Map TranslateProofs Prop_Translate Examples.
Open Scope string_scope.
Open Scope nat_scope.
Open Scope list_scope.
Local Notation length := List.length.
Set Implicit Arguments.

(** The variances of signals multiplied by [u] *)
Definition gained (K : Fld) (u : Cx K) (var : statarg K) : statarg K :=
  match var with SNone => SNone | SOne v => SOne (fmul K (cnorm2 u) v) | STwo a b => STwo (fmul K (cnorm2 u) a) (fmul K (cnorm2 u) b) end.
(** The mean variance is not zero *)
Definition varies (K : Fld) (var : statarg K) : Prop :=
  match var with SNone => True | SOne v => v <> f0 K | STwo a b => fadd K a b <> f0 K end.
Section Varies.
  Variable K : Fld.
  Add Field VFfield : (flaw K).
  Lemma varies_factor (var : statarg K) : varies K var -> forall v, scale_factor K var = Ok v -> v <> f0 K.
  Proof.
    destruct var as [|a|a b]; cbn; [discriminate| |]; intros H v E; injection E as <-; [exact H|]. intros X. apply H. pose proof (Kernels.two_neq0 K) as H2.
    transitivity (fmul K (fdiv K (fadd K a b) (fadd K (f1 K) (f1 K))) (fadd K (f1 K) (f1 K))); [|rewrite X]; match goal with |- @eq _ ?a ?b => change (@eq (fcar K) a b) end; [field; exact H2|ring].
  Qed.
End Varies.

(** Both signals multiplied by a number other than zero, the backgrounds by the same number and the variances by its squared
    absolute value.  With scale=True: the same normalized data, or the same exception, for every norm (also weighted ones), mode
    and weight.  With scale=False, given weights or a norm without weights: every value multiplied by the squared absolute value. *)
Theorem C100_gain_real (K : Fld) (W : nat -> Cx K) u aligned f1' f2 t1 t2 n norm nm method N denoise bg var norm' mode weight :
  cnorm2 u <> f0 K -> varies K var -> cross_call W f1' f2 t1 t2 n method N -> norm_arg norm nm ->
  (let* data := ccorr W aligned (map (cmul u) f1') (map (cmul u) f2) t1 t2 n norm method None None None in
   normalize real_ops denoise data (turned u bg) (gained u var) norm' mode true weight) =
  (let* data := ccorr W aligned f1' f2 t1 t2 n norm method None None None in
   normalize real_ops denoise data bg var norm' mode true weight) /\
  (weight <> None \/ (exists z, norm' = Some (NInt z) /\ Z.land z 3 <> 3%Z) ->
   (let* data := ccorr W aligned (map (cmul u) f1') (map (cmul u) f2) t1 t2 n norm method None None None in
    normalize real_ops denoise data (turned u bg) (gained u var) norm' mode false weight) =
   on_result (fmul K (cnorm2 u)) (let* data := ccorr W aligned f1' f2 t1 t2 n norm method None None None in normalize real_ops denoise data bg var norm' mode false weight)).
Proof.
  intros Hu Hv HC HN.
  rewrite (@ccorr_call K W aligned _ _ t1 t2 n norm nm method N (cross_call_map (cmul u) (cmul u) HC) HN).
  rewrite (@ccorr_call K W aligned f1' f2 t1 t2 n norm nm method N HC HN). cbn [bind].
  rewrite (@real_gain K u (fun i => pairs_at i (samples f1' t1) (samples f2 t2))) by (intros; apply pairs_at_val). split.
  - apply (@normalize_gain K u _ real_ops (gain_real u)); [exact Hu|apply varies_factor; exact Hv].
  - apply (@normalize_gain_plain K u _ real_ops (gain_real u)).
Qed.
Print Assumptions C100_gain_real.
Theorem C100_gain_complex (K : Fld) (W : nat -> Cx K) u aligned f1' f2 t1 t2 n norm nm method N denoise bg var norm' mode weight :
  cnorm2 u <> f0 K -> varies K var -> 0 < N -> cross_call W f1' f2 t1 t2 n method N -> norm_arg norm nm ->
  (let* data := ccorr_complex W aligned (map (cmul u) f1') (map (cmul u) f2) t1 t2 n norm method None None None in
   normalize complex_ops denoise data (turned u bg) (gained u var) norm' mode true weight) =
  (let* data := ccorr_complex W aligned f1' f2 t1 t2 n norm method None None None in
   normalize complex_ops denoise data bg var norm' mode true weight) /\
  (weight <> None \/ (exists z, norm' = Some (NInt z) /\ Z.land z 3 <> 3%Z) ->
   (let* data := ccorr_complex W aligned (map (cmul u) f1') (map (cmul u) f2) t1 t2 n norm method None None None in
    normalize complex_ops denoise data (turned u bg) (gained u var) norm' mode false weight) =
   on_result (cscal (cnorm2 u)) (let* data := ccorr_complex W aligned f1' f2 t1 t2 n norm method None None None in normalize complex_ops denoise data bg var norm' mode false weight)).
Proof.
  intros Hu Hv H0 HC HN.
  rewrite (@ccorr_complex_call K W aligned _ _ t1 t2 n norm nm method N H0 (cross_call_map (cmul u) (cmul u) HC) HN).
  rewrite (@ccorr_complex_call K W aligned f1' f2 t1 t2 n norm nm method N H0 HC HN). cbn [bind].
  rewrite (@complex_gain K u (fun i => pairs_signed (lag_at N i) (samples f1' t1) (samples f2 t2))) by (intros; apply pairs_signed_val). split.
  - apply (@normalize_gain K u _ complex_ops (gain_complex u)); [exact Hu|apply varies_factor; exact Hv].
  - apply (@normalize_gain_plain K u _ complex_ops (gain_complex u)).
Qed.
Print Assumptions C100_gain_complex.
Theorem C100_gain_diff (K : Fld) (W : nat -> Cx K) u aligned f1' f2 t1 t2 n norm nm N denoise bg var norm' mode weight :
  cnorm2 u <> f0 K -> varies K var -> cross_diff_call f1' f2 t1 t2 n N -> norm_arg_diff true norm nm ->
  (let* data := ccorr W aligned (map (cmul u) f1') (map (cmul u) f2) t1 t2 n norm (Some "diff") None None None in
   normalize real_ops denoise data (turned u bg) (gained u var) norm' mode true weight) =
  (let* data := ccorr W aligned f1' f2 t1 t2 n norm (Some "diff") None None None in
   normalize real_ops denoise data bg var norm' mode true weight) /\
  (weight <> None \/ (exists z, norm' = Some (NInt z) /\ Z.land z 3 <> 3%Z) ->
   (let* data := ccorr W aligned (map (cmul u) f1') (map (cmul u) f2) t1 t2 n norm (Some "diff") None None None in
    normalize real_ops denoise data (turned u bg) (gained u var) norm' mode false weight) =
   on_result (fmul K (cnorm2 u)) (let* data := ccorr W aligned f1' f2 t1 t2 n norm (Some "diff") None None None in normalize real_ops denoise data bg var norm' mode false weight)).
Proof.
  intros Hu Hv HC HN.
  rewrite (@ccorr_diff_call K W aligned _ _ t1 t2 n norm nm N (cross_diff_call_map (cmul u) (cmul u) HC) HN).
  rewrite (@ccorr_diff_call K W aligned f1' f2 t1 t2 n norm nm N HC HN). cbn [bind].
  rewrite (@diff_gain K u (fun i => pairs_at i (samples f1' t1) (samples f2 t2))) by (intros; apply pairs_at_val). split.
  - apply (@normalize_gain K u _ real_ops (gain_real u)); [exact Hu|apply varies_factor; exact Hv].
  - apply (@normalize_gain_plain K u _ real_ops (gain_real u)).
Qed.
Print Assumptions C100_gain_diff.
Theorem C100_gain_auto (K : Fld) (W : nat -> Cx K) u aligned f t n norm nm method N denoise bg var norm' mode weight :
  cnorm2 u <> f0 K -> varies K var -> auto_call W f t n method N -> norm_arg norm nm ->
  (let* data := acorr W aligned (map (cmul u) f) t None n norm method None in
   normalize real_ops denoise data (turned u bg) (gained u var) norm' mode true weight) =
  (let* data := acorr W aligned f t None n norm method None in
   normalize real_ops denoise data bg var norm' mode true weight) /\
  (weight <> None \/ (exists z, norm' = Some (NInt z) /\ Z.land z 3 <> 3%Z) ->
   (let* data := acorr W aligned (map (cmul u) f) t None n norm method None in
    normalize real_ops denoise data (turned u bg) (gained u var) norm' mode false weight) =
   on_result (fmul K (cnorm2 u)) (let* data := acorr W aligned f t None n norm method None in normalize real_ops denoise data bg var norm' mode false weight)).
Proof.
  intros Hu Hv HC HN.
  rewrite (@acorr_call K W aligned _ t n norm nm method N (auto_call_map (cmul u) HC) HN).
  rewrite (@acorr_call K W aligned f t n norm nm method N HC HN). cbn [bind].
  rewrite (@auto_gain K u (fun i => upairs_at i (samples f t))) by (intros; apply upairs_val). split.
  - apply (@normalize_gain K u _ real_ops (gain_real u)); [exact Hu|apply varies_factor; exact Hv].
  - apply (@normalize_gain_plain K u _ real_ops (gain_real u)).
Qed.
Print Assumptions C100_gain_auto.
Theorem C100_gain_auto_complex (K : Fld) (W : nat -> Cx K) u aligned f t n norm nm method N denoise bg var norm' mode weight :
  cnorm2 u <> f0 K -> varies K var -> auto_call W f t n method N -> norm_arg norm nm ->
  (let* data := acorr_complex W aligned (map (cmul u) f) t None n norm method None in
   normalize complex_ops denoise data (turned u bg) (gained u var) norm' mode true weight) =
  (let* data := acorr_complex W aligned f t None n norm method None in
   normalize complex_ops denoise data bg var norm' mode true weight) /\
  (weight <> None \/ (exists z, norm' = Some (NInt z) /\ Z.land z 3 <> 3%Z) ->
   (let* data := acorr_complex W aligned (map (cmul u) f) t None n norm method None in
    normalize complex_ops denoise data (turned u bg) (gained u var) norm' mode false weight) =
   on_result (cscal (cnorm2 u)) (let* data := acorr_complex W aligned f t None n norm method None in normalize complex_ops denoise data bg var norm' mode false weight)).
Proof.
  intros Hu Hv HC HN.
  rewrite (@acorr_complex_call K W aligned _ t n norm nm method N (auto_call_map (cmul u) HC) HN).
  rewrite (@acorr_complex_call K W aligned f t n norm nm method N HC HN). cbn [bind].
  rewrite (@auto_complex_gain K u (fun i => upairs_at i (samples f t))) by (intros; apply upairs_val). split.
  - apply (@normalize_gain K u _ complex_ops (gain_complex u)); [exact Hu|apply varies_factor; exact Hv].
  - apply (@normalize_gain_plain K u _ complex_ops (gain_complex u)).
Qed.
Print Assumptions C100_gain_auto_complex.
Theorem C100_gain_auto_diff (K : Fld) (W : nat -> Cx K) u aligned f t n norm nm N denoise bg var norm' mode weight :
  cnorm2 u <> f0 K -> varies K var -> auto_diff_call f t n N -> norm_arg_diff false norm nm ->
  (let* data := acorr W aligned (map (cmul u) f) t None n norm (Some "diff") None in
   normalize real_ops denoise data (turned u bg) (gained u var) norm' mode true weight) =
  (let* data := acorr W aligned f t None n norm (Some "diff") None in
   normalize real_ops denoise data bg var norm' mode true weight) /\
  (weight <> None \/ (exists z, norm' = Some (NInt z) /\ Z.land z 3 <> 3%Z) ->
   (let* data := acorr W aligned (map (cmul u) f) t None n norm (Some "diff") None in
    normalize real_ops denoise data (turned u bg) (gained u var) norm' mode false weight) =
   on_result (fmul K (cnorm2 u)) (let* data := acorr W aligned f t None n norm (Some "diff") None in normalize real_ops denoise data bg var norm' mode false weight)).
Proof.
  intros Hu Hv HC HN.
  rewrite (@acorr_diff_call K W aligned _ t n norm nm N (auto_diff_call_map (cmul u) HC) HN).
  rewrite (@acorr_diff_call K W aligned f t n norm nm N HC HN). cbn [bind].
  rewrite (@auto_diff_gain K u (fun i => upairs_at i (samples f t))) by (intros; apply upairs_val). split.
  - apply (@normalize_gain K u _ real_ops (gain_real u)); [exact Hu|apply varies_factor; exact Hv].
  - apply (@normalize_gain_plain K u _ real_ops (gain_real u)).
Qed.
Print Assumptions C100_gain_auto_diff.

(** The statistics of the multiplied signals *)
Theorem C100_gain_stats (K : Fld) (u : Cx K) f f' :
  stats (map (cmul u) f) (option_map (map (cmul u)) f') = fv_map (fun s => (turned u (fst s), gained u (snd s))) (stats f f').
Proof.
  assert (A : forall x, cmul u x = cadd (cmul u x) (c0 K)) by (intros x; destruct (cmul u x) as [p q']; unfold cadd, c0, cre, cim; cbn [fst snd]; rewrite !(fadd_comm K _ (f0 K)), !fadd_0_l; reflexivity).
  assert (M : forall x l, list_mean (map (cmul u) (x :: l)) = cmul u (list_mean (x :: l))).
  { intros x l. rewrite (map_ext _ _ A), mean_affine by discriminate. symmetry. apply A. }
  assert (V : forall x l, list_variance (map (cmul u) (x :: l)) = fmul K (cnorm2 u) (list_variance (x :: l))).
  { intros x l. rewrite (map_ext _ _ A). apply variance_affine. discriminate. }
  destruct f' as [f'|]; cbn [option_map].
  - destruct (C82_stats f f f') as [_ E]. rewrite E. destruct (C82_stats f (map (cmul u) f) (map (cmul u) f')) as [_ E']. rewrite E'.
    destruct f as [|x f]; [reflexivity|]. destruct f' as [|y f']; [reflexivity|]. cbn [map]. cbn [map] in M, V. rewrite !M, !V. reflexivity.
  - destruct (C82_stats f f f) as [E _]. rewrite E. destruct (C82_stats (map (cmul u) f) f f) as [E' _]. rewrite E'.
    destruct f as [|x f]; [reflexivity|]. cbn [map]. cbn [map] in M, V. rewrite M, V. reflexivity.
Qed.
Print Assumptions C100_gain_stats.
