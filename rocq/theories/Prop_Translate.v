(** C98: Overall phases of the signals, and translated frames. *)
From Coq Require Import String Field ZifyBool ZifyNat.
From Verif Require Import Base Ordered Kernels PairSpec KernelProofs PairLemmas CoreModel CoreProofs CoreProofs3 NormModel NormSpec
  FftModel FftProofs CorrModel CorrSpec CorrProofs CorrProofs2 NormProofs NormProofs2 NormApi NormAuto NormMap NormApi2 NormMode NormMode2 NormMode3 NormApi3
  StatsModel StreamSpec Prop_Stats TurnProofs TurnData TurnApi VideoModel MapModel MapProofs Fft2Model Fft2Proofs Prop_Fft Prop_Map TranslateProofs Examples.
Open Scope string_scope.
Open Scope nat_scope.
Open Scope list_scope.
Local Notation length := List.length.
Set Implicit Arguments.

(** The background of signals multiplied by [u] *)
Definition turned (K : Fld) (u : Cx K) (bg : statarg (Cx K)) : statarg (Cx K) :=
  match bg with SNone => SNone | SOne b => SOne (cmul u b) | STwo b1 b2 => STwo (cmul u b1) (cmul u b2) end.

Section Phase.
  Variable K : Fld.
  Notation C := (Cx K).
  Variable W : nat -> C.
  Variable u : C.
  Hypothesis Hu : cnorm2 u = f1 K.
  Lemma cross_diff_call_map (g h : C -> C) f1 f2 t1 t2 n N : cross_diff_call f1 f2 t1 t2 n N -> cross_diff_call (map g f1) (map h f2) t1 t2 n N.
  Proof.
    intros (H1 & H2 & H3). split; [apply valid_cross_map; exact H1|]. rewrite !samples_map, map_length. split; [|exact H3].
    destruct n; [exact H2|]. destruct H2 as [A B]. split; [apply map_neq_nil; exact A|apply covers_map; exact B].
  Qed.
  Lemma auto_diff_call_map (g : C -> C) f t n N : auto_diff_call f t n N -> auto_diff_call (map g f) t n N.
  Proof.
    intros (H1 & H2 & H3). split; [destruct t; [destruct H1 as [A B]; split; [rewrite map_length; exact A|apply map_neq_nil; exact B]|exact H1]|]. rewrite !samples_map, map_length. split; [|exact H3].
    destruct n; [exact H2|]. destruct H2 as [A B]. split; [apply map_neq_nil; exact A|apply covers_map; exact B].
  Qed.
  Lemma upairs_val k f t : upairs_at k (samples (map (cmul u) f) t) = map (map_pair (on_val (cmul u)) (on_val (cmul u))) (upairs_at k (samples f t)).
  Proof. rewrite samples_map. apply upairs_at_map. reflexivity. Qed.
End Phase.

(** Both signals multiplied by a number of absolute value one, with the backgrounds multiplied by it: for every norm (weighted
    ones as well), mode, scale and weight the same normalized data, or the same exception. *)
Theorem C98_phase_real (K : Fld) (W : nat -> Cx K) u aligned f1' f2 t1 t2 n norm nm method N denoise bg var norm' mode scale weight :
  cnorm2 u = f1 K -> cross_call W f1' f2 t1 t2 n method N -> norm_arg norm nm ->
  (let* data := ccorr W aligned (map (cmul u) f1') (map (cmul u) f2) t1 t2 n norm method None None None in
   normalize real_ops denoise data (turned u bg) var norm' mode scale weight) =
  (let* data := ccorr W aligned f1' f2 t1 t2 n norm method None None None in
   normalize real_ops denoise data bg var norm' mode scale weight).
Proof.
  intros Hu HC HN.
  rewrite (@ccorr_call K W aligned _ _ t1 t2 n norm nm method N (cross_call_map (cmul u) (cmul u) HC) HN).
  rewrite (@ccorr_call K W aligned f1' f2 t1 t2 n norm nm method N HC HN). cbn [bind].
  rewrite (@real_turn K u Hu (fun i => pairs_at i (samples f1' t1) (samples f2 t2))) by (intros; apply pairs_at_val).
  apply (@normalize_turn K u K real_ops (blind_real u Hu)).
Qed.
Print Assumptions C98_phase_real.
Theorem C98_phase_complex (K : Fld) (W : nat -> Cx K) u aligned f1' f2 t1 t2 n norm nm method N denoise bg var norm' mode scale weight :
  cnorm2 u = f1 K -> 0 < N -> cross_call W f1' f2 t1 t2 n method N -> norm_arg norm nm ->
  (let* data := ccorr_complex W aligned (map (cmul u) f1') (map (cmul u) f2) t1 t2 n norm method None None None in
   normalize complex_ops denoise data (turned u bg) var norm' mode scale weight) =
  (let* data := ccorr_complex W aligned f1' f2 t1 t2 n norm method None None None in
   normalize complex_ops denoise data bg var norm' mode scale weight).
Proof.
  intros Hu H0 HC HN.
  rewrite (@ccorr_complex_call K W aligned _ _ t1 t2 n norm nm method N H0 (cross_call_map (cmul u) (cmul u) HC) HN).
  rewrite (@ccorr_complex_call K W aligned f1' f2 t1 t2 n norm nm method N H0 HC HN). cbn [bind].
  rewrite (@complex_turn K u Hu (fun i => pairs_signed (lag_at N i) (samples f1' t1) (samples f2 t2))) by (intros; apply pairs_signed_val).
  apply (@normalize_turn K u (Cx K) complex_ops (blind_complex u Hu)).
Qed.
Print Assumptions C98_phase_complex.
Theorem C98_phase_diff (K : Fld) (W : nat -> Cx K) u aligned f1' f2 t1 t2 n norm nm N denoise bg var norm' mode scale weight :
  cnorm2 u = f1 K -> cross_diff_call f1' f2 t1 t2 n N -> norm_arg_diff true norm nm ->
  (let* data := ccorr W aligned (map (cmul u) f1') (map (cmul u) f2) t1 t2 n norm (Some "diff") None None None in
   normalize real_ops denoise data (turned u bg) var norm' mode scale weight) =
  (let* data := ccorr W aligned f1' f2 t1 t2 n norm (Some "diff") None None None in
   normalize real_ops denoise data bg var norm' mode scale weight).
Proof.
  intros Hu HC HN.
  rewrite (@ccorr_diff_call K W aligned _ _ t1 t2 n norm nm N (cross_diff_call_map (cmul u) (cmul u) HC) HN).
  rewrite (@ccorr_diff_call K W aligned f1' f2 t1 t2 n norm nm N HC HN). cbn [bind].
  rewrite (@diff_turn K u Hu (fun i => pairs_at i (samples f1' t1) (samples f2 t2))) by (intros; apply pairs_at_val).
  apply (@normalize_turn K u K real_ops (blind_real u Hu)).
Qed.
Print Assumptions C98_phase_diff.
Theorem C98_phase_auto (K : Fld) (W : nat -> Cx K) u aligned f t n norm nm method N denoise denoise' bg var norm' mode scale weight weight' :
  cnorm2 u = f1 K -> auto_call W f t n method N -> norm_arg norm nm ->
  (let* data := acorr W aligned (map (cmul u) f) t None n norm method None in normalize real_ops denoise data (turned u bg) var norm' mode scale weight) =
  (let* data := acorr W aligned f t None n norm method None in normalize real_ops denoise data bg var norm' mode scale weight) /\
  (let* data := acorr_complex W aligned (map (cmul u) f) t None n norm method None in normalize complex_ops denoise' data (turned u bg) var norm' mode scale weight') =
  (let* data := acorr_complex W aligned f t None n norm method None in normalize complex_ops denoise' data bg var norm' mode scale weight').
Proof.
  intros Hu HC HN. split.
  - rewrite (@acorr_call K W aligned _ t n norm nm method N (auto_call_map (cmul u) HC) HN), (@acorr_call K W aligned f t n norm nm method N HC HN). cbn [bind].
    rewrite (@auto_turn K u Hu (fun i => upairs_at i (samples f t))) by (intros; apply upairs_val).
    apply (@normalize_turn K u K real_ops (blind_real u Hu)).
  - rewrite (@acorr_complex_call K W aligned _ t n norm nm method N (auto_call_map (cmul u) HC) HN), (@acorr_complex_call K W aligned f t n norm nm method N HC HN). cbn [bind].
    rewrite (@auto_complex_turn K u Hu (fun i => upairs_at i (samples f t))) by (intros; apply upairs_val).
    apply (@normalize_turn K u (Cx K) complex_ops (blind_complex u Hu)).
Qed.
Print Assumptions C98_phase_auto.
Theorem C98_phase_auto_diff (K : Fld) (W : nat -> Cx K) u aligned f t n norm nm N denoise bg var norm' mode scale weight :
  cnorm2 u = f1 K -> auto_diff_call f t n N -> norm_arg_diff false norm nm ->
  (let* data := acorr W aligned (map (cmul u) f) t None n norm (Some "diff") None in normalize real_ops denoise data (turned u bg) var norm' mode scale weight) =
  (let* data := acorr W aligned f t None n norm (Some "diff") None in normalize real_ops denoise data bg var norm' mode scale weight).
Proof.
  intros Hu HC HN.
  rewrite (@acorr_diff_call K W aligned _ t n norm nm N (auto_diff_call_map (cmul u) HC) HN), (@acorr_diff_call K W aligned f t n norm nm N HC HN). cbn [bind].
  rewrite (@auto_diff_turn K u Hu (fun i => upairs_at i (samples f t))) by (intros; apply upairs_val).
  apply (@normalize_turn K u K real_ops (blind_real u Hu)).
Qed.
Print Assumptions C98_phase_auto_diff.

(** The statistics of the multiplied signals: the multiplied background and the same variance. *)
Theorem C98_stats (K : Fld) (u : Cx K) f f' : cnorm2 u = f1 K ->
  stats (map (cmul u) f) (option_map (map (cmul u)) f') = fv_map (fun s => (turned u (fst s), snd s)) (stats f f').
Proof.
  intros Hu.
  assert (A : forall x, cmul u x = cadd (cmul u x) (c0 K)) by (intros x; destruct (cmul u x) as [p q']; unfold cadd, c0, cre, cim; cbn [fst snd]; rewrite !(fadd_comm K _ (f0 K)), !fadd_0_l; reflexivity).
  assert (M : forall x l, list_mean (map (cmul u) (x :: l)) = cmul u (list_mean (x :: l))).
  { intros x l. rewrite (map_ext _ _ A), mean_affine by discriminate. symmetry. apply A. }
  assert (V : forall x l, list_variance (map (cmul u) (x :: l)) = list_variance (x :: l)).
  { intros x l. rewrite (map_ext _ _ A), variance_affine by discriminate. rewrite Hu. apply (Rmul_1_l (F_R (flaw K))). }
  destruct f' as [f'|]; cbn [option_map].
  - destruct (C82_stats f f f') as [_ E]. rewrite E. destruct (C82_stats f (map (cmul u) f) (map (cmul u) f')) as [_ E']. rewrite E'.
    destruct f as [|x f]; [reflexivity|]. destruct f' as [|y f']; [reflexivity|]. cbn [map]. cbn [map] in M, V. rewrite !M, !V. reflexivity.
  - destruct (C82_stats f f f) as [E _]. rewrite E. destruct (C82_stats (map (cmul u) f) f f) as [E' _]. rewrite E'.
    destruct f as [|x f]; [reflexivity|]. cbn [map]. cbn [map] in M, V. rewrite M, V. reflexivity.
Qed.
Print Assumptions C98_stats.

Lemma supports_sub norm nm z : norm_arg norm nm -> In z [1; 5; 9; 13]%Z -> (In z [5; 9; 13]%Z -> In nm [5; 6; 7]%Z) ->
  data_supports (has_flag nm NORM_STRUCTURED) (has_flag nm NORM_SUBTRACTED) z = true.
Proof.
  intros HN HZ HZ'.
  destruct HN as [[_ HI]|[_ ->]]; cbn [In] in *; [|decompose [or] HZ; try contradiction; subst z; reflexivity].
    decompose [or] HZ; try contradiction; subst z; (decompose [or] HI; try contradiction; subst nm; try reflexivity; exfalso; specialize (HZ' ltac:(auto)); lia).
Qed.
(** Two signals multiplied by different numbers: every value of the complex data, normalized without the squares, is multiplied
    by conj(u1) u2. *)
Theorem C98_two_phases (K : Fld) (W : nat -> Cx K) u1 u2 aligned f1' f2 t1 t2 n norm nm method N b1 b2 var var' z denoise w :
  0 < N -> cross_call W f1' f2 t1 t2 n method N -> norm_arg norm nm -> In z [1; 5; 9; 13]%Z -> (In z [5; 9; 13]%Z -> In nm [5; 6; 7]%Z) ->
  (let* data := ccorr_complex W aligned (map (cmul u1) f1') (map (cmul u2) f2) t1 t2 n norm method None None None in
   normalize complex_ops denoise data (STwo (cmul u1 b1) (cmul u2 b2)) var (Some (NInt z)) "corr" false w) =
  on_result (cmul (cmul (conj u1) u2))
    (let* data := ccorr_complex W aligned f1' f2 t1 t2 n norm method None None None in
     normalize complex_ops denoise data (STwo b1 b2) var' (Some (NInt z)) "corr" false w).
Proof.
  intros H0 HC HN HZ HZ'.
  assert (HS : data_supports (has_flag nm NORM_STRUCTURED) (has_flag nm NORM_SUBTRACTED) z = true) by (apply supports_sub with (norm := norm); assumption).
  assert (HL : unweighted z = true) by (cbn [In] in HZ; decompose [or] HZ; try contradiction; subst z; reflexivity).
  rewrite (@ccorr_complex_call K W aligned _ _ t1 t2 n norm nm method N H0 (cross_call_map (cmul u1) (cmul u2) HC) HN).
  rewrite (@ccorr_complex_call K W aligned f1' f2 t1 t2 n norm nm method N H0 HC HN). cbn [bind].
  assert (HV : forall var, @variance_ok K var (f0 K) z) by (intros v' Hv; exfalso; cbn [In] in HZ; decompose [or] HZ; try contradiction; subst z; discriminate).
  rewrite (@normalize_cross_complex K (fun i => pairs_signed (lag_at N i) (samples (map (cmul u1) f1') t1) (samples (map (cmul u2) f2) t2)) (2 * N - 1) nm
    (cmul u1 b1) (cmul u2 b2) (STwo (cmul u1 b1) (cmul u2 b2)) var (f0 K) (or_introl eq_refl) denoise z w HS HL (HV _)).
  rewrite (@normalize_cross_complex K (fun i => pairs_signed (lag_at N i) (samples f1' t1) (samples f2 t2)) (2 * N - 1) nm b1 b2 (STwo b1 b2) var' (f0 K) (or_introl eq_refl) denoise z w HS HL (HV _)).
  cbn [on_result bind]. f_equal.
  apply at_delays_map with (h := PairLemmas.map_pair (on_val (cmul u1)) (on_val (cmul u2))).
  - intros k. apply pairs_signed_val.
  - intros Q HQ. apply complex_value_turn; assumption.
Qed.
Print Assumptions C98_two_phases.

(** * Translated frames *)

(** Moving a frame around its edges multiplies each entry of its transform by a number of absolute value one, which is the
    same for all frames. *)
Theorem C98_dft_shift (K : Fld) (W : nat -> Cx K) h w a b k l : 1 <= h -> 1 <= w -> is_root h (W h) -> is_root w (W w) ->
  exists u, cnorm2 u = f1 K /\ forall x : mat (Cx K), mh x = h -> mw x = w -> dft2_at W (translate a b x) k l = cmul u (dft2_at W x k l).
Proof.
  intros Hh Hw Rh Rw. exists (phase W h w a b k l). split; [apply phase_norm; [apply Rh|apply Rw]|]. intros x <- <-. apply dft2_translate; assumption.
Qed.
Print Assumptions C98_dft_shift.

(** The values of camera [c] at the wave vector [ki], [kj] of a video of transforms *)
Definition signal (K : Fld) (c : nat) (ki kj : Z) (video : gen (list (mat (Cx K)))) : list (Cx K) :=
  map (fun frames => match nth_error frames c with Some x => at_freq x ki kj | None => c0 K end) (yields video).
(** All frames of a video moved by [a] rows and [b] columns *)
Definition moved {A} (a b : Z) (video : gen (list (mat A))) : gen (list (mat A)) :=
  Gen (map (map (translate a b)) (yields video)) (ending video).

Section Video.
  Variable K : Fld.
  Notation C := (Cx K).
  Lemma signal_of A (tr : mat A -> C) (c : nat) ki kj (l : list (list (mat A))) out :
    Forall2 (Forall2 (fun x y => at_freq y ki kj = tr x)) l (yields out) ->
    signal c ki kj out = map (fun frames => match nth_error frames c with Some x => tr x | None => c0 K end) l.
  Proof.
    unfold signal. generalize (yields out). induction 1 as [|fs os l os' H _ IH]; [reflexivity|]. cbn [map]. rewrite IH. f_equal. clear -H.
    revert c. induction H as [|x y l l' H _ IH]; intros [|c]; cbn [nth_error]; auto.
  Qed.
  Lemma Forall2_impl' A B (P Q : A -> B -> Prop) l l' : (forall x y, In x l -> P x y -> Q x y) -> Forall2 P l l' -> Forall2 Q l l'.
  Proof. intros H F. induction F as [|x y l l' Hx F IH]; constructor; [apply H; [left; reflexivity|exact Hx]|]. apply IH. intros; apply H; [right; assumption|assumption]. Qed.
End Video.
Theorem C98_moved_video (K : Fld) (W : nat -> Cx K) junk (video : gen (list (mat K))) kimax kjmax h w a b ki kj :
  (1 <= kimax <= Z.of_nat h / 2)%Z -> (0 <= kjmax <= Z.of_nat w / 2)%Z -> 1 <= w -> is_root h (W h) -> is_root w (W w) ->
  (forall frames x, In frames (yields video) -> In x frames -> mh x = h /\ mw x = w) ->
  (- kimax <= ki <= kimax)%Z -> (0 <= kj <= kjmax)%Z ->
  exists u, cnorm2 u = f1 K /\ forall c,
    signal c ki kj (rfft2_video W junk (moved a b video) (Some kimax) (Some kjmax)) =
    map (cmul u) (signal c ki kj (rfft2_video W junk video (Some kimax) (Some kjmax))).
Proof.
  intros H1 H2 Hw Rh Rw HX Hi Hj. assert (Hh : 1 <= h) by (destruct h; [cbn in H1; lia|lia]).
  exists (phase W h w a b (freq h ki) (freq w kj)). split; [apply phase_norm; [apply Rh|apply Rw]|]. intros c.
  destruct (C73_rfft2_video W junk video) with (kimax := kimax) (kjmax := kjmax) as [_ F1]; [lia|lia|intros fs x I1 I2; destruct (HX _ _ I1 I2) as [-> ->]; lia|].
  destruct (C73_rfft2_video W junk (moved a b video)) with (kimax := kimax) (kjmax := kjmax) as [_ F2]; [lia|lia| |].
  { intros fs x I1 I2. cbn [moved yields] in I1. apply in_map_iff in I1. destruct I1 as (fs' & <- & I1). apply in_map_iff in I2. destruct I2 as (x' & <- & I2). cbn [translate mh mw]. destruct (HX _ _ I1 I2) as [-> ->]. lia. }
  assert (G : forall (l : list (list (mat K))) (os : list (list (mat (Cx K)))), Forall2 (Forall2 (fun x out => Z.of_nat (mh out) = (2 * kimax + 1)%Z /\ Z.of_nat (mw out) = (kjmax + 1)%Z /\
      forall ki kj, (- kimax <= ki <= kimax)%Z -> (0 <= kj <= kjmax)%Z -> at_freq out ki kj = dft2_at W (real_frame K x) (freq (mh x) ki) (freq (mw x) kj))) l os ->
    Forall2 (Forall2 (fun x y => at_freq y ki kj = dft2_at W (real_frame K x) (freq (mh x) ki) (freq (mw x) kj))) l os).
  { intros l os F. eapply Forall2_impl'; [|exact F]. intros fs fo _ F'. eapply Forall2_impl'; [|exact F']. intros x y _ (_ & _ & E). apply E; lia. }
  rewrite (@signal_of K K (fun x => dft2_at W (real_frame K x) (freq (mh x) ki) (freq (mw x) kj)) c ki kj _ _ (G _ _ F1)).
  rewrite (@signal_of K K (fun x => dft2_at W (real_frame K x) (freq (mh x) ki) (freq (mw x) kj)) c ki kj _ _ (G _ _ F2)).
  cbn [moved yields]. rewrite !map_map. apply map_ext_in. intros fs I1. rewrite nth_error_map.
  destruct (nth_error fs c) as [x|] eqn:E; cbn [option_map]; [|symmetry; apply turn_zero].
  destruct (HX _ _ I1 (nth_error_In _ _ E)) as [Ex1 Ex2]. cbn [translate mh mw]. rewrite Ex1, Ex2.
  change (real_frame K (translate a b x)) with (translate a b (real_frame K x)).
  rewrite dft2_translate by (cbn [real_frame mh mw]; rewrite ?Ex1, ?Ex2; assumption). cbn [real_frame mh mw]. rewrite Ex1, Ex2. reflexivity.
Qed.
Print Assumptions C98_moved_video.

(** The whole analysis of the moved video (statistics, correlation, normalization) at a wave vector gives the data of the video. *)
Theorem C98_analysis (K : Fld) (W : nat -> Cx K) junk (video : gen (list (mat K))) kimax kjmax h w a b ki kj cam1 cam2
    aligned t1 t2 n norm nm method N bg var denoise denoise' norm' mode scale weight weight' :
  (1 <= kimax <= Z.of_nat h / 2)%Z -> (0 <= kjmax <= Z.of_nat w / 2)%Z -> 1 <= w -> is_root h (W h) -> is_root w (W w) ->
  (forall frames x, In frames (yields video) -> In x frames -> mh x = h /\ mw x = w) ->
  (- kimax <= ki <= kimax)%Z -> (0 <= kj <= kjmax)%Z ->
  let seen cam := signal cam ki kj (rfft2_video W junk video (Some kimax) (Some kjmax)) in
  let seen' cam := signal cam ki kj (rfft2_video W junk (moved a b video) (Some kimax) (Some kjmax)) in
  0 < N -> cross_call W (seen cam1) (seen cam2) t1 t2 n method N -> norm_arg norm nm ->
  stats (seen cam1) (Some (seen cam2)) = Fin (bg, var) ->
  exists bg', stats (seen' cam1) (Some (seen' cam2)) = Fin (bg', var) /\
    (let* data := ccorr W aligned (seen' cam1) (seen' cam2) t1 t2 n norm method None None None in normalize real_ops denoise data bg' var norm' mode scale weight) =
    (let* data := ccorr W aligned (seen cam1) (seen cam2) t1 t2 n norm method None None None in normalize real_ops denoise data bg var norm' mode scale weight) /\
    (let* data := ccorr_complex W aligned (seen' cam1) (seen' cam2) t1 t2 n norm method None None None in normalize complex_ops denoise' data bg' var norm' mode scale weight') =
    (let* data := ccorr_complex W aligned (seen cam1) (seen cam2) t1 t2 n norm method None None None in normalize complex_ops denoise' data bg var norm' mode scale weight').
Proof.
  intros H1 H2 Hw Rh Rw HX Hi Hj seen seen' HN0 HC HN HST.
  destruct (@C98_moved_video K W junk video kimax kjmax h w a b ki kj H1 H2 Hw Rh Rw HX Hi Hj) as (u & Hu & E).
  exists (turned u bg). unfold seen'. rewrite !E. fold (seen cam1) (seen cam2). split; [|split].
  - pose proof (@C98_stats K u (seen cam1) (Some (seen cam2)) Hu) as S. cbn [option_map] in S. rewrite S, HST. reflexivity.
  - apply C98_phase_real with (nm := nm) (N := N); assumption.
  - apply C98_phase_complex with (nm := nm) (N := N); assumption.
Qed.
Print Assumptions C98_analysis.

(** The hypotheses hold for two frames of a single camera; the signal at the wave vector (0, 1) and that of the moved video. *)
Definition fr24' : mat QcF := table (q 0) [[q 0; q 2; q 5; q 1]; [q 1; q 1; q 3; q 2]].
Definition vid24 : gen (list (mat QcF)) := Gen [[fr24]; [fr24']] None.
Example C98_example : is_root 2 (Wq 2) /\ is_root 4 (Wq 4) /\
  map showc (signal 0 0 1 (rfft2_video Wq (fun _ _ => cz 9 9) vid24 (Some 1) (Some 1))%Z) = [(-2, 1, (3, 1)); (-7, 1, (0, 1))]%Z /\
  map showc (signal 0 0 1 (rfft2_video Wq (fun _ _ => cz 9 9) (moved 1 (-1) vid24) (Some 1) (Some 1))%Z) = [(-3, 1, (-2, 1)); (0, 1, (-7, 1))]%Z /\
  cross_call Wq (signal 0 0 1 (rfft2_video Wq (fun _ _ => cz 9 9) vid24 (Some 1) (Some 1))%Z) (signal 0 0 1 (rfft2_video Wq (fun _ _ => cz 9 9) vid24 (Some 1) (Some 1))%Z)
    None None (Some 2) (Some "corr") 2.
Proof.
  split; [apply C73_example|]. split; [apply C73_example|]. split; [vm_compute; reflexivity|]. split; [vm_compute; reflexivity|].
  split; [split; [reflexivity|exact I]|]. split; [reflexivity|]. split; [intros _; vm_compute; lia|]. left. left. reflexivity.
Qed.
