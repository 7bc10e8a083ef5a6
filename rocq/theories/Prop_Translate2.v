(** C98: Two cameras that see the same scene at different places. *)
From Coq Require Import Reals Lra Lia.
From Coq Require Import String Field ZifyBool ZifyNat.
From Verif Require Import Base Ordered Kernels PairSpec KernelProofs PairLemmas CoreModel CoreProofs CoreProofs3 NormModel NormSpec
  FftModel FftProofs CorrModel CorrSpec CorrProofs CorrProofs2 NormProofs NormProofs2 NormApi NormAuto NormMap NormApi2 NormMode NormMode2 NormMode3 NormApi3
  FftReals ShiftModel ShiftProofs Prop_SectorReals Prop_Shift TurnProofs TurnData TurnApi Prop_Translate.
Open Scope string_scope.
Open Scope nat_scope.
Open Scope list_scope.
Local Notation length := List.length.
Set Implicit Arguments.

Section Mirror.
  Variable K : Fld.
  Notation C := (Cx K).
  Notation pair := (sample C * sample C)%type.
  Add Field Kfm : (flaw K).
  Ltac fr := match goal with |- @eq _ ?a ?b => change (@eq (fcar K) a b) end; ring.
  Variable d : list (sample C).
  Lemma mirror_sum (M : CMon) m (g : pair -> M) : Sum M (pairs_signed (- m) d d) g = Sum M (pairs_signed m d d) (fun p => g (swap p)).
  Proof. rewrite Sum_pairs_signed_swap. rewrite Z.opp_involutive. reflexivity. Qed.
  Lemma Sum_length A (l : list A) : Sum natmon l (fun _ => 1) = length l.
  Proof. induction l as [|x l IH]; [reflexivity|]. rewrite Sum_cons, IH. reflexivity. Qed.
  Lemma mirror_length m : length (pairs_signed (- m) d d) = length (pairs_signed m d d).
  Proof. rewrite <- !Sum_length. apply (@mirror_sum natmon). Qed.
  Lemma mirror_mean m (g g' : pair -> K) : (forall p, g (swap p) = g' p) -> mean (pairs_signed (- m) d d) g = mean (pairs_signed m d d) g'.
  Proof. intros H. unfold mean. rewrite mirror_length, mirror_sum. f_equal. apply Sum_ext. intros p _. apply H. Qed.
  Lemma mean_opp Q (g g' : pair -> K) : (forall p, g p = fopp K (g' p)) -> mean Q g = fopp K (mean Q g').
  Proof.
    intros H. unfold mean. replace (Sum (fmon K) Q g) with (fopp K (Sum (fmon K) Q g')); [rewrite !(Fdiv_def (flaw K)); fr|].
    induction Q as [|p Q IH]; [cbn; fr|]. rewrite !Sum_cons, <- IH, H. cbn [madd fmon]. generalize (g' p) (Sum (fmon K) Q g'). cbn [mcar fmon]. intros. fr.
  Qed.
  Lemma mirror_value b v z m : In z [1; 5; 9; 13]%Z ->
    complex_value b b v z (pairs_signed (- m) d d) = conj (complex_value b b v z (pairs_signed m d d)).
  Proof.
    intros HZ.
    assert (P : forall b, cmean (pairs_signed (- m) d d) (prod_about b b) = conj (cmean (pairs_signed m d d) (prod_about b b))).
    { intros b'. unfold cmean, conj. cbn [cre cim fst snd]. unfold cre at 2, cim at 2. cbn [fst snd]. f_equal.
      - apply mirror_mean. intros p. unfold prod_about, swap, fst_val, snd_val, csub, cmul, conj, cre, cim; cbn [fst snd]. fr.
      - rewrite <- (@mean_opp _ (fun p => fopp K (cim (prod_about b' b' p))) (fun p => cim (prod_about b' b' p))) by reflexivity.
        apply mirror_mean. intros p. unfold prod_about, swap, fst_val, snd_val, csub, cmul, conj, cre, cim; cbn [fst snd]. fr. }
    assert (P0 : cmean (pairs_signed (- m) d d) (@cx_prod K) = conj (cmean (pairs_signed m d d) (@cx_prod K))).
    { unfold cmean, conj. cbn [cre cim fst snd]. unfold cre at 2, cim at 2. cbn [fst snd]. f_equal.
      - apply mirror_mean. intros p. rewrite cx_prod_swap. reflexivity.
      - rewrite <- (@mean_opp _ (fun p => fopp K (cim (cx_prod p))) (fun p => cim (cx_prod p))) by reflexivity.
        apply mirror_mean. intros p. rewrite cx_prod_swap. reflexivity. }
    assert (F1 : cmean (pairs_signed (- m) d d) (@fst_val K) = cmean (pairs_signed m d d) (@snd_val K)) by (unfold cmean; f_equal; apply mirror_mean; reflexivity).
    assert (F2 : cmean (pairs_signed (- m) d d) (@snd_val K) = cmean (pairs_signed m d d) (@fst_val K)) by (unfold cmean; f_equal; apply mirror_mean; reflexivity).
    unfold complex_value. cbn [In] in HZ. decompose [or] HZ; try contradiction; subst z; cbn [Z.eqb Pos.eqb orb].
    - rewrite P0. generalize (cmean (pairs_signed m d d) (@cx_prod K)). intros [x y]. unfold csub, cmul, conj, cre, cim; cbn [fst snd]. f_equal; fr.
    - apply P.
    - rewrite P0, F1, F2. generalize (cmean (pairs_signed m d d) (@cx_prod K)) (cmean (pairs_signed m d d) (@fst_val K)) (cmean (pairs_signed m d d) (@snd_val K)).
      intros [x y] [x' y'] [x'' y'']. unfold csub, cmul, conj, cre, cim; cbn [fst snd]. f_equal; fr.
    - apply P.
  Qed.
End Mirror.

(** The second camera sees the signal of the first one times a phase, as a translation between the cameras makes it: the
    normalized complex data of both cameras is turned by that phase, and equalize_data gives back, at every delay above zero at
    which the real part is positive, the data of one camera with itself. *)
Theorem C98_equalize (W : nat -> Cx RF) aligned (f : list (Cx RF)) t n norm nm method N (b : Cx RF) var var' z denoise w phi csqrt empty :
  0 < N -> cross_call W f f t t n method N -> norm_arg norm nm -> In z [1; 5; 9; 13]%Z -> (In z [5; 9; 13]%Z -> In nm [5; 6; 7]%Z) ->
  (forall k, k < N -> pairs_signed (Z.of_nat k) (samples f t) (samples f t) <> []) ->
  is_csqrt csqrt -> length empty = 2 * N - 1 ->
  exists own both out,
    (let* data := ccorr_complex W aligned f f t t n norm method None None None in
     normalize complex_ops denoise data (STwo b b) var' (Some (NInt z)) "corr" false w) = Ok (map Fin own) /\
    (let* data := ccorr_complex W aligned f (map (cmul (cexp phi)) f) t t n norm method None None None in
     normalize complex_ops denoise data (STwo b (cmul (cexp phi) b)) var (Some (NInt z)) "corr" false w) = Ok (map Fin both) /\
    both = map (cmul (cexp phi)) own /\ length own = 2 * N - 1 /\
    equalize_data csqrt true empty both = Ok out /\
    forall i, 0 < i < N -> (0 < @cre RF (nth i own (c0 RF)))%R -> nth i out (c0 RF) = nth i own (c0 RF).
Proof.
  intros H0 HC HN HZ HZ' HP HS HE.
  set (d := samples f t). set (cv := fun i => complex_value b b (f0 RF) z (pairs_signed (lag_at N i) d d)).
  set (own := map cv (seq 0 (2 * N - 1))). set (both := map (cmul (cexp phi)) own).
  assert (HL : length own = 2 * N - 1) by (unfold own; rewrite map_length, seq_length; reflexivity).
  assert (HB : length both = 2 * N - 1) by (unfold both; rewrite map_length; exact HL).
  assert (N1 : forall i, i < 2 * N - 1 -> nth i own (c0 RF) = cv i).
  { intros i Hi. rewrite (nth_indep _ _ (cv 0)) by lia. unfold own. rewrite map_nth, seq_nth by lia. reflexivity. }
  assert (N2 : forall i, i < 2 * N - 1 -> nth i both (c0 RF) = cmul (cv i) (cexp phi)).
  { intros i Hi. rewrite (nth_indep _ _ (cmul (cexp phi) (c0 RF))) by lia. unfold both. rewrite map_nth, N1 by lia.
    generalize (cv i) (cexp phi). intros [x y] [x' y']. unfold cmul, cre, cim. cbn [fst snd RF fadd fmul fsub]. f_equal; ring. }
  assert (NE : forall i, i < 2 * N - 1 -> pairs_signed (lag_at N i) d d <> []).
  { intros i Hi. unfold lag_at. destruct (Nat.ltb_spec i N) as [L|L]; [apply HP; exact L|].
    replace (Z.of_nat i - (2 * Z.of_nat N - 1))%Z with (- Z.of_nat (2 * N - 1 - i))%Z by lia. intros E.
    apply (HP (2 * N - 1 - i) ltac:(lia)). apply length_zero_iff_nil. fold d. rewrite <- mirror_length, E. reflexivity. }
  assert (E1 : (let* data := ccorr_complex W aligned f f t t n norm method None None None in
     normalize complex_ops denoise data (STwo b b) var' (Some (NInt z)) "corr" false w) = Ok (map Fin own)).
  { rewrite (@ccorr_complex_call RF W aligned f f t t n norm nm method N H0 HC HN). cbn [bind].
    assert (HSu : data_supports (has_flag nm NORM_STRUCTURED) (has_flag nm NORM_SUBTRACTED) z = true) by (apply supports_sub with (norm := norm); assumption).
    assert (HU : unweighted z = true) by (cbn [In] in HZ; decompose [or] HZ; try contradiction; subst z; reflexivity).
    assert (HV : @variance_ok RF var' (f0 RF) z) by (intros Hv; exfalso; cbn [In] in HZ; decompose [or] HZ; try contradiction; subst z; discriminate).
    rewrite (@normalize_cross_complex RF (fun i => pairs_signed (lag_at N i) (samples f t) (samples f t)) (2 * N - 1) nm b b (STwo b b) var' (f0 RF) (or_introl eq_refl) denoise z w HSu HU HV).
    f_equal. unfold own, at_delays. rewrite map_map. apply map_ext_in. intros i Hi. apply in_seq in Hi. fold d. specialize (NE i ltac:(lia)).
    unfold cv. destruct (pairs_signed (lag_at N i) d d); [congruence|reflexivity]. }
  assert (E2 : (let* data := ccorr_complex W aligned f (map (cmul (cexp phi)) f) t t n norm method None None None in
     normalize complex_ops denoise data (STwo b (cmul (cexp phi) b)) var (Some (NInt z)) "corr" false w) = Ok (map Fin both)).
  { assert (I : forall x, cmul (c1 RF) x = x) by (intros [x y]; unfold cmul, c1, cre, cim; cbn [fst snd RF fadd fmul fsub f0 f1]; f_equal; ring).
    pose proof (@C98_two_phases RF W (c1 RF) (cexp phi) aligned f f t t n norm nm method N b b var var' z denoise w H0 HC HN HZ HZ') as E.
    rewrite E1 in E. rewrite (map_ext _ _ I), map_id, I in E. etransitivity; [exact E|]. unfold on_result. cbn [bind]. f_equal. unfold both. generalize own. intros l0. induction l0 as [|x l0 IH]; [reflexivity|]. cbn [map fv_map]. rewrite IH. f_equal. f_equal.
    assert (J : cmul (conj (c1 RF)) (cexp phi) = cexp phi) by (generalize (cexp phi); intros [x' y']; unfold cmul, conj, c1, cre, cim; cbn [fst snd RF fadd fmul fsub fopp f0 f1]; f_equal; ring).
    rewrite J. reflexivity. }
  assert (M : misaligned N cv phi both).
  { split; [exact H0|]. split; [exact HB|]. split; [apply N2; lia|]. intros i Hi. split; [apply N2; lia|]. rewrite HB, N2 by lia. f_equal.
    unfold cv. unfold lag_at. replace (2 * N - 1 - i <? N) with false by lia. replace (i <? N) with true by lia.
    replace (Z.of_nat (2 * N - 1 - i) - (2 * Z.of_nat N - 1))%Z with (- Z.of_nat i)%Z by lia. apply mirror_value. exact HZ. }
  assert (HE' : length empty = length both) by lia.
  destruct (Nat.eq_dec N 1) as [->|HN1].
  - assert (EO : exists out, equalize_data csqrt true empty both = Ok out) by (clear -HB; destruct both as [|x l]; [cbn in HB; lia|eexists; reflexivity]). destruct EO as (out & EO). exists own, both, out. split; [exact E1|]. split; [exact E2|]. split; [reflexivity|]. split; [exact HL|]. split; [exact EO|]. intros i Hi. lia.
  - destruct (@C76_equalize_result csqrt empty both N cv phi 1 HS HE' M ltac:(lia)) as (out & EO & _).
    exists own, both, out. split; [exact E1|]. split; [exact E2|]. split; [reflexivity|]. split; [exact HL|]. split; [exact EO|]. intros i Hi HR.
    destruct (@C76_equalize_result csqrt empty both N cv phi i HS HE' M Hi) as (out' & EO' & P & _). rewrite EO in EO'. assert (EE : out' = out) by congruence. subst out'.
    rewrite N1 in * by lia. apply P. exact HR.
Qed.
Print Assumptions C98_equalize.

(** The hypotheses hold for a signal of two values, two delays, background zero and the root of the model. *)
Example C98_example2 : let f := [(1, 0); (2, 1)]%R : list (Cx RF) in
  cross_call (fun _ => c0 RF) f f None None (Some 2) (Some "corr") 2 /\ norm_arg (Some 1%Z) 1%Z /\
  (forall k, k < 2 -> pairs_signed (Z.of_nat k) (samples f None) (samples f None) <> []) /\ is_csqrt (fun _ => principal_root).
Proof.
  cbv zeta. split; [|split; [|split]].
  - split; [split; [reflexivity|exact I]|]. split; [reflexivity|]. split; [intros _; cbn; lia|]. left. left. reflexivity.
  - left. split; [reflexivity|]. left. reflexivity.
  - intros [|[|k]] Hk; [discriminate|discriminate|lia].
  - exact csqrt_exists.
Qed.
