(** Combinations of the previous results used for the properties C21 to C27. *)
From Verif Require Import Base Kernels PairSpec KernelProofs PairLemmas CoreModel CoreProofs CoreProofs3 NormModel NormSpec
  FftModel CorrModel CorrSpec CorrProofs CorrProofs2 NormProofs NormProofs2 NormApi NormAuto NormMap NormApi2 NormMode NormMode2 NormMode3.
From Coq Require Import String Ascii Field ZifyBool ZifyNat.
Open Scope string_scope.
Open Scope nat_scope.
Local Notation length := List.length.
Set Implicit Arguments.

Section Combine.
  Variable K : Fld.
  Notation C := (Cx K).
  Notation pair := (sample C * sample C)%type.
  Add Field Kfy : (flaw K).

  Lemma modes_real denoise data bg var v norm scale w :
    scale_factor K var = Ok v -> v <> f0 K ->
    (w = None -> forall u l, denoise (map (fv_map (twice_minus K u)) l) = map (fv_map (twice_minus K u)) (denoise l)) ->
    normalize real_ops denoise data bg var norm "diff" scale w =
    on_result (twice_minus K (if scale then f1 K else v)) (normalize real_ops denoise data bg var norm "corr" scale w).
  Proof.
    intros E Hv HD.
    assert (FM : forall u (l : list (fval K)), map (fv_map (flip (@real_ops K) u)) l = map (fv_map (twice_minus K u)) l).
    { intros u l. apply map_ext. intros [x|]; [|reflexivity]. cbn [fv_map]. rewrite flip_real. reflexivity. }
    etransitivity; [apply (@normalize_mode K K real_ops denoise (@real_flip_unflip K) (@real_flip_over K) (@real_flip_weighted K) (@real_flip_weight K) data bg var v norm scale w E Hv)|].
    - intros Hw u l. rewrite !FM. apply HD. exact Hw.
    - apply on_result_ext. intros x. apply flip_real.
  Qed.
  Lemma modes_complex denoise data bg var v norm scale w :
    scale_factor K var = Ok v -> v <> f0 K ->
    (w = None -> forall u l, denoise (map (fv_map (@twice_minus_c K u)) l) = map (fv_map (@twice_minus_c K u)) (denoise l)) ->
    normalize complex_ops denoise data bg var norm "diff" scale w =
    on_result (@twice_minus_c K (if scale then f1 K else v)) (normalize complex_ops denoise data bg var norm "corr" scale w).
  Proof.
    intros E Hv HD.
    assert (FM : forall u (l : list (fval C)), map (fv_map (flip (@complex_ops K) u)) l = map (fv_map (@twice_minus_c K u)) l).
    { intros u l. apply map_ext. intros [x|]; [|reflexivity]. cbn [fv_map]. rewrite flip_complex. reflexivity. }
    etransitivity; [apply (@normalize_mode K C complex_ops denoise (@complex_flip_unflip K) (@complex_flip_over K) (@complex_flip_weighted K) (@complex_flip_weight K) data bg var v norm scale w E Hv)|].
    - intros Hw u l. rewrite !FM. apply HD. exact Hw.
    - apply on_result_ext. intros x. apply flip_complex.
  Qed.
  Lemma modes_unweighted_real denoise data bg var v norm w z :
    scale_factor K var = Ok v -> _default_norm_from_data data norm = Ok z -> (Z.land z 3 <> 3)%Z ->
    normalize real_ops denoise data bg var (option_map NInt norm) "diff" false w =
    on_result (twice_minus K v) (normalize real_ops denoise data bg var (option_map NInt norm) "corr" false w).
  Proof.
    intros E HD HW. rewrite (@normalize_mode_unweighted K K real_ops denoise (@real_flip_unflip K) data bg var v norm w z E HD HW).
    apply on_result_ext. intros x. apply flip_real.
  Qed.
  Lemma back_and_forth (l : list (fval K)) var v : scale_factor K var = Ok v ->
    (let* d := _corr2diff real_ops l var in _diff2corr real_ops d var) = Ok l /\
    (let* d := _diff2corr real_ops l var in _corr2diff real_ops d var) = Ok l.
  Proof.
    intros E. unfold _corr2diff, _diff2corr. rewrite E. cbn [bind]. split; f_equal; rewrite map_map; rewrite <- (map_id l) at 2;
      apply map_ext; intros [x|]; try reflexivity; cbn; apply (f_equal (@Fin _));
      match goal with |- @eq _ ?a ?b => change (@eq (fcar K) a b) end; field; apply two_neq0.
  Qed.

  Lemma twice_minus_inj u x y : twice_minus K u x = twice_minus K u y -> x = y.
  Proof.
    intros H. apply (f_equal (fun x => fsub K u (fdiv K x (fadd K (f1 K) (f1 K))))) in H. unfold twice_minus in H.
    pose proof (@two_neq0 K) as H2.
    transitivity (fsub K u (fdiv K (fmul K (fadd K (f1 K) (f1 K)) (fsub K u x)) (fadd K (f1 K) (f1 K)))); [field; exact H2|].
    rewrite H. field. exact H2.
  Qed.
  Lemma on_result_inj {A B} (f : A -> B) : (forall x y, f x = f y -> x = y) -> forall r r', on_result f r = on_result f r' -> r = r'.
  Proof.
    intros Hf [l|e] [l'|e'] E; try discriminate; [|injection E as ->; reflexivity]. cbn in E. injection E as E. f_equal.
    revert l' E. induction l as [|x l IH]; intros [|y l'] E; try discriminate; [reflexivity|]. cbn in E. injection E as E1 E2. f_equal; [|apply IH; exact E2].
    destruct x, y; try discriminate; [|reflexivity]. cbn in E1. injection E1 as E1. f_equal. apply Hf. exact E1.
  Qed.
  Lemma on_result_delays V V' (f : V -> V') N (P : nat -> list pair) g : on_result f (Ok (at_delays N P g)) = Ok (at_delays N P (fun Q => f (g Q))).
  Proof. cbn. f_equal. unfold at_delays. rewrite map_map. apply map_ext. intros k. destruct (P k); reflexivity. Qed.

  Variable W : nat -> C.
  Lemma same_result P N nm nm' b1 b2 bg var v denoise w z mode : background bg b1 b2 -> scale_factor K var = Ok v ->
    (z = 2%Z /\ In nm [2; 3; 6; 7]%Z \/ z = 6%Z /\ In nm [6; 7]%Z /\ nm' = 6%Z) -> (mode = "corr" \/ mode = "diff") ->
    normalize real_ops denoise (cross_real_data P N nm) bg var (Some (NInt z)) mode false w =
    normalize real_ops denoise (cross_diff_data P N nm') bg var (Some (NInt z)) mode false w.
  Proof.
    intros HB HV HZ HM.
    assert (HS : data_supports (has_flag nm NORM_STRUCTURED) (has_flag nm NORM_SUBTRACTED) z = true).
    { destruct HZ as [[-> HI]|(-> & HI & _)]; cbn in HI; decompose [or] HI; try contradiction; subst nm; reflexivity. }
    assert (HU : unweighted z = true) by (destruct HZ as [[-> HI]|(-> & HI & _)]; reflexivity).
    assert (HL : (Z.land z 3 <> 3)%Z) by (destruct HZ as [[-> HI]|(-> & HI & _)]; discriminate).
    assert (HVO : variance_ok K var v z) by (intros _; exact HV).
    assert (R : normalize real_ops denoise (cross_real_data P N nm) bg var (Some (NInt z)) "corr" false w = Ok (at_delays N P (real_value b1 b2 v z)))
      by (apply normalize_cross_real; assumption).
    assert (D : normalize real_ops denoise (cross_diff_data P N nm') bg var (Some (NInt z)) "diff" false w = Ok (at_delays N P (diff_value b1 b2 z))).
    { apply normalize_cross_diff; [assumption|]. destruct HZ as [[-> HI]|(-> & HI & ->)]; [left; reflexivity|right; split; reflexivity]. }
    assert (RD : normalize real_ops denoise (cross_real_data P N nm) bg var (Some (NInt z)) "diff" false w = on_result (twice_minus K v) (Ok (at_delays N P (real_value b1 b2 v z)))).
    { rewrite <- R. apply (@modes_unweighted_real denoise (cross_real_data P N nm) bg var v (Some z) w z HV); [|exact HL]. apply supports_data. exact HS. }
    assert (DD : normalize real_ops denoise (cross_diff_data P N nm') bg var (Some (NInt z)) "diff" false w =
                 on_result (twice_minus K v) (normalize real_ops denoise (cross_diff_data P N nm') bg var (Some (NInt z)) "corr" false w)).
    { apply (@modes_unweighted_real denoise (cross_diff_data P N nm') bg var v (Some z) w z HV); [|exact HL].
      rewrite default_norm_spec. destruct HZ as [[-> HI]|(-> & HI & ->)]; reflexivity. }
    assert (E : normalize real_ops denoise (cross_real_data P N nm) bg var (Some (NInt z)) "diff" false w =
                normalize real_ops denoise (cross_diff_data P N nm') bg var (Some (NInt z)) "diff" false w).
    { rewrite RD, D, on_result_delays. f_equal. apply at_delays_ext. intros Q HQ. pose proof (@two_neq0 K) as H2.
      unfold twice_minus, real_value, diff_value, half. destruct HZ as [[-> HI]|(-> & HI & ->)]; cbn [Z.eqb Pos.eqb orb];
      match goal with |- @eq _ ?a ?b => change (@eq (fcar K) a b) end; field; exact H2. }
    destruct HM as [->| ->]; [|exact E].
    apply (@on_result_inj K K (twice_minus K v) (@twice_minus_inj v)). rewrite <- DD, <- E, RD, R. reflexivity.
  Qed.
  Lemma same_result_auto P N nm b bg var v denoise w mode : (bg = SOne b \/ bg = STwo b b) -> scale_factor K var = Ok v ->
    In nm [2; 3; 6; 7]%Z -> (mode = "corr" \/ mode = "diff") ->
    normalize real_ops denoise (auto_real_data P N nm) bg var (Some (NInt 2%Z)) mode false w =
    normalize real_ops denoise (auto_diff_data P N) bg var (Some (NInt 2%Z)) mode false w.
  Proof.
    intros HB HV HI HM.
    assert (HS : data_supports (has_flag nm NORM_STRUCTURED) (has_flag nm NORM_SUBTRACTED) 2 = true).
    { cbn in HI; decompose [or] HI; try contradiction; subst nm; reflexivity. }
    assert (HVO : variance_ok K var v 2) by (intros _; exact HV).
    assert (R : normalize real_ops denoise (auto_real_data P N nm) bg var (Some (NInt 2%Z)) "corr" false w = Ok (at_delays N P (auto_value b v 2)))
      by (apply normalize_auto_real; auto).
    assert (D : normalize real_ops denoise (auto_diff_data P N) bg var (Some (NInt 2%Z)) "diff" false w = Ok (at_delays N P (fun Q => mean Q (@sq_diff K)))).
    { apply normalize_auto_diff with (b := b). assumption. }
    assert (RD : normalize real_ops denoise (auto_real_data P N nm) bg var (Some (NInt 2%Z)) "diff" false w = on_result (twice_minus K v) (Ok (at_delays N P (auto_value b v 2)))).
    { rewrite <- R. apply (@modes_unweighted_real denoise (auto_real_data P N nm) bg var v (Some 2%Z) w 2 HV); [|discriminate]. apply auto_supports. exact HS. }
    assert (DD : normalize real_ops denoise (auto_diff_data P N) bg var (Some (NInt 2%Z)) "diff" false w =
                 on_result (twice_minus K v) (normalize real_ops denoise (auto_diff_data P N) bg var (Some (NInt 2%Z)) "corr" false w)).
    { apply (@modes_unweighted_real denoise (auto_diff_data P N) bg var v (Some 2%Z) w 2 HV); [|discriminate]. reflexivity. }
    assert (E : normalize real_ops denoise (auto_real_data P N nm) bg var (Some (NInt 2%Z)) "diff" false w =
                normalize real_ops denoise (auto_diff_data P N) bg var (Some (NInt 2%Z)) "diff" false w).
    { rewrite RD, D, on_result_delays. f_equal. apply at_delays_ext. intros Q HQ. pose proof (@two_neq0 K) as H2.
      unfold twice_minus, auto_value, half. cbn [Z.eqb Pos.eqb orb].
      match goal with |- @eq _ ?a ?b => change (@eq (fcar K) a b) end; field; exact H2. }
    destruct HM as [->| ->]; [|exact E].
    apply (@on_result_inj K K (twice_minus K v) (@twice_minus_inj v)). rewrite <- DD, <- E, RD, R. reflexivity.
  Qed.

  Lemma flags_bits nm z : data_supports (Z.testbit nm 1) (Z.testbit nm 2) z = data_supports (has_flag nm NORM_STRUCTURED) (has_flag nm NORM_SUBTRACTED) z.
  Proof. rewrite bit1, bit2. reflexivity. Qed.
  Lemma unweighted_of z : (Z.land z 3 <> 3)%Z -> unweighted z = true.
  Proof. intros H. unfold unweighted. apply Z.eqb_neq in H. rewrite H. reflexivity. Qed.
  Lemma affine_real aligned f1 f2 t1 t2 n norm nm method N b1 b2 v z g c1 c2 denoise w :
    cross_call W f1 f2 t1 t2 n method N -> norm_arg norm nm ->
    data_supports (Z.testbit nm 1) (Z.testbit nm 2) z = true -> (Z.land z 3 <> 3)%Z ->
    (In z [5; 6; 9; 10; 13; 14]%Z \/ (c1 = c0 K /\ c2 = c0 K)) ->
    (let* data := ccorr W aligned (map (affine g c1) f1) (map (affine g c2) f2) t1 t2 n norm method None None None in
     normalize real_ops denoise data (STwo (affine g c1 b1) (affine g c2 b2)) (SOne (fmul K (fmul K g g) v)) (Some (NInt z)) "corr" false w) =
    on_result (fmul K (fmul K g g))
      (let* data := ccorr W aligned f1 f2 t1 t2 n norm method None None None in
       normalize real_ops denoise data (STwo b1 b2) (SOne v) (Some (NInt z)) "corr" false w).
  Proof.
    intros HC HN HS HL HZ. rewrite flags_bits in HS.
    rewrite (@ccorr_call K W aligned _ _ t1 t2 n norm nm method N (cross_call_map (affine g c1) (affine g c2) HC) HN).
    rewrite (@ccorr_call K W aligned f1 f2 t1 t2 n norm nm method N HC HN). cbn [bind].
    rewrite (@normalize_cross_real K (fun i => pairs_at i (samples (map (affine g c1) f1) t1) (samples (map (affine g c2) f2) t2)) N nm
      (affine g c1 b1) (affine g c2 b2) (STwo (affine g c1 b1) (affine g c2 b2)) (SOne (fmul K (fmul K g g) v)) (fmul K (fmul K g g) v) (or_introl eq_refl) denoise z w HS (@unweighted_of z HL) (fun _ => eq_refl)).
    rewrite (@normalize_cross_real K (fun i => pairs_at i (samples f1 t1) (samples f2 t2)) N nm b1 b2 (STwo b1 b2) (SOne v) v (or_introl eq_refl) denoise z w HS (@unweighted_of z HL) (fun _ => eq_refl)).
    cbn [on_result bind]. f_equal.
    apply at_delays_map with (h := PairLemmas.map_pair (on_val (affine g c1)) (on_val (affine g c2))).
    - intros k. apply pairs_at_val.
    - intros Q HQ. apply real_value_affine; [exact HQ| |apply unweighted_of; exact HL|].
      + apply in_list_In. exact (@supports_In _ _ z HS).
      + destruct HZ as [HZ|HZ]; [left|right; exact HZ]. cbn in HZ. decompose [or] HZ; try contradiction; subst z; reflexivity.
  Qed.
  Lemma affine_complex aligned f1 f2 t1 t2 n norm nm method N b1 b2 v z g c1 c2 denoise w :
    0 < N -> cross_call W f1 f2 t1 t2 n method N -> norm_arg norm nm ->
    data_supports (Z.testbit nm 1) (Z.testbit nm 2) z = true -> (Z.land z 3 <> 3)%Z ->
    (In z [5; 6; 9; 10; 13; 14]%Z \/ (c1 = c0 K /\ c2 = c0 K)) ->
    (let* data := ccorr_complex W aligned (map (affine g c1) f1) (map (affine g c2) f2) t1 t2 n norm method None None None in
     normalize complex_ops denoise data (STwo (affine g c1 b1) (affine g c2 b2)) (SOne (fmul K (fmul K g g) v)) (Some (NInt z)) "corr" false w) =
    on_result (cscal (fmul K g g))
      (let* data := ccorr_complex W aligned f1 f2 t1 t2 n norm method None None None in
       normalize complex_ops denoise data (STwo b1 b2) (SOne v) (Some (NInt z)) "corr" false w).
  Proof.
    intros H0 HC HN HS HL HZ. rewrite flags_bits in HS.
    rewrite (@ccorr_complex_call K W aligned _ _ t1 t2 n norm nm method N H0 (cross_call_map (affine g c1) (affine g c2) HC) HN).
    rewrite (@ccorr_complex_call K W aligned f1 f2 t1 t2 n norm nm method N H0 HC HN). cbn [bind].
    rewrite (@normalize_cross_complex K (fun i => pairs_signed (lag_at N i) (samples (map (affine g c1) f1) t1) (samples (map (affine g c2) f2) t2)) (2 * N - 1) nm
      (affine g c1 b1) (affine g c2 b2) (STwo (affine g c1 b1) (affine g c2 b2)) (SOne (fmul K (fmul K g g) v)) (fmul K (fmul K g g) v) (or_introl eq_refl) denoise z w HS (@unweighted_of z HL) (fun _ => eq_refl)).
    rewrite (@normalize_cross_complex K (fun i => pairs_signed (lag_at N i) (samples f1 t1) (samples f2 t2)) (2 * N - 1) nm b1 b2 (STwo b1 b2) (SOne v) v (or_introl eq_refl) denoise z w HS (@unweighted_of z HL) (fun _ => eq_refl)).
    cbn [on_result bind]. f_equal.
    apply at_delays_map with (h := PairLemmas.map_pair (on_val (affine g c1)) (on_val (affine g c2))).
    - intros k. apply pairs_signed_val.
    - intros Q HQ. apply complex_value_affine; [exact HQ| |apply unweighted_of; exact HL|].
      + apply in_list_In. exact (@supports_In _ _ z HS).
      + destruct HZ as [HZ|HZ]; [left|right; exact HZ]. cbn in HZ. decompose [or] HZ; try contradiction; subst z; reflexivity.
  Qed.
  Lemma affine_one c z : affine (f1 K) c z = cadd z c.
  Proof. unfold affine. destruct z, c. unfold cscal, cadd, cre, cim. cbn [fst snd]. f_equal; match goal with |- @eq _ ?a ?b => change (@eq (fcar K) a b) end; ring. Qed.
  Lemma offset_real aligned x1 x2 t1 t2 n norm nm method N b1 b2 v z c1 c2 denoise w :
    cross_call W x1 x2 t1 t2 n method N -> norm_arg norm nm ->
    data_supports (Z.testbit nm 1) (Z.testbit nm 2) z = true -> In z [5; 6; 9; 10; 13; 14]%Z ->
    (let* data := ccorr W aligned (map (fun x => cadd x c1) x1) (map (fun y => cadd y c2) x2) t1 t2 n norm method None None None in
     normalize real_ops denoise data (STwo (cadd b1 c1) (cadd b2 c2)) (SOne v) (Some (NInt z)) "corr" false w) =
    (let* data := ccorr W aligned x1 x2 t1 t2 n norm method None None None in
     normalize real_ops denoise data (STwo b1 b2) (SOne v) (Some (NInt z)) "corr" false w).
  Proof.
    intros HC HN HS HZ.
    assert (HL : (Z.land z 3 <> 3)%Z) by (cbn in HZ; decompose [or] HZ; try contradiction; subst z; discriminate).
    pose proof (@affine_real aligned x1 x2 t1 t2 n norm nm method N b1 b2 v z (f1 K) c1 c2 denoise w HC HN HS HL (or_introl HZ)) as H.
    rewrite !affine_one in H. rewrite (map_ext _ _ (affine_one c1)), (map_ext _ _ (affine_one c2)) in H.
    replace (fmul K (fmul K (f1 K) (f1 K)) v) with v in H by ring. etransitivity; [exact H|].
    match goal with |- on_result _ ?r = _ => destruct r as [l|]; [|reflexivity] end. cbn. f_equal. rewrite <- (map_id l) at 2.
    apply map_ext. intros [x|]; [|reflexivity]. cbn. f_equal. match goal with |- @eq _ ?a ?b => change (@eq (fcar K) a b) end; ring.
  Qed.

  Lemma shape_wf V (data : cdata K V) nm cross N : corr_shape data nm cross N -> well_formed data N.
  Proof.
    destruct data as [d c sq s1 s2| |]; try contradiction. cbn. intros (H1 & H2 & H3 & H4 & H5).
    repeat split; auto; unfold opt_len, present in *.
    - destruct sq; tauto.
    - destruct s1; tauto.
    - destruct cross; [destruct s2; tauto|subst s2; exact I].
  Qed.
  Lemma shape_supports V (data : cdata K V) nm cross N z : corr_shape data nm cross N -> supports data z = data_supports (Z.testbit nm 1) (Z.testbit nm 2) z.
  Proof.
    destruct data as [d c sq s1 s2| |]; try contradiction. unfold corr_shape, supports. intros (H1 & H2 & H3 & H4 & H5). unfold present in *.
    clear H5. revert H3 H4. generalize (Z.testbit nm 1) (Z.testbit nm 2). intros x y H3 H4.
    destruct sq, s1; repeat match goal with H : _ /\ _ |- _ => destruct H end; subst; reflexivity.
  Qed.
  Lemma cross_accepts aligned f1 f2 t1 t2 n norm nm method N bg var v z mode scale w denoise :
    cross_call W f1 f2 t1 t2 n method N -> norm_arg norm nm ->
    (mode = "corr" \/ mode = "diff") -> bg <> SNone -> scale_factor K var = Ok v ->
    let r := (let* data := ccorr W aligned f1 f2 t1 t2 n norm method None None None in
              normalize real_ops denoise data bg var (Some (NInt z)) mode scale w) in
    (data_supports (Z.testbit nm 1) (Z.testbit nm 2) z = true -> exists l, r = Ok l) /\
    (data_supports (Z.testbit nm 1) (Z.testbit nm 2) z = false -> r = Raise ValueError).
  Proof.
    intros HC HN HM HB HV r. unfold r. rewrite (@ccorr_call K W aligned f1 f2 t1 t2 n norm nm method N HC HN). cbn [bind].
    set (data := cross_real_data _ N nm). assert (HS : corr_shape data nm true N) by apply real_shape.
    rewrite <- (@shape_supports _ data nm true N z HS). apply (@normalize_accepts K K real_ops denoise data N bg var v z mode scale w); auto.
    - apply real_has_diff.
    - apply (shape_wf _ _ _ _ HS).
  Qed.
  Lemma auto_accepts aligned f t n norm nm method N bg var v z mode scale w denoise :
    auto_call W f t n method N -> norm_arg norm nm ->
    (mode = "corr" \/ mode = "diff") -> bg <> SNone -> scale_factor K var = Ok v ->
    let r := (let* data := acorr W aligned f t None n norm method None in
              normalize real_ops denoise data bg var (Some (NInt z)) mode scale w) in
    (data_supports (Z.testbit nm 1) (Z.testbit nm 2) z = true -> exists l, r = Ok l) /\
    (data_supports (Z.testbit nm 1) (Z.testbit nm 2) z = false -> r = Raise ValueError).
  Proof.
    intros HC HN HM HB HV r. unfold r. rewrite (@acorr_call K W aligned f t n norm nm method N HC HN). cbn [bind].
    set (data := auto_real_data _ N nm). assert (HS : corr_shape data nm false N) by apply auto_shape.
    rewrite <- (@shape_supports _ data nm false N z HS). apply (@normalize_accepts K K real_ops denoise data N bg var v z mode scale w); auto.
    - apply real_has_diff.
    - apply (shape_wf _ _ _ _ HS).
  Qed.
  Lemma cross_diff_accepts aligned f1 f2 t1 t2 n norm nm N bg var v z mode scale w denoise :
    cross_diff_call f1 f2 t1 t2 n N -> norm_arg_diff true norm nm ->
    (mode = "corr" \/ mode = "diff") -> bg <> SNone -> scale_factor K var = Ok v ->
    let r := (let* data := ccorr W aligned f1 f2 t1 t2 n norm (Some "diff") None None None in
              normalize real_ops denoise data bg var (Some (NInt z)) mode scale w) in
    ((z = 2%Z \/ (z = 6%Z /\ nm = 6%Z)) -> exists l, r = Ok l) /\
    (~ (z = 2%Z \/ (z = 6%Z /\ nm = 6%Z)) -> r = Raise ValueError).
  Proof.
    intros HC HN HM HB HV r. unfold r. rewrite (@ccorr_diff_call K W aligned f1 f2 t1 t2 n norm nm N HC HN). cbn [bind].
    set (data := cross_diff_data _ N nm). assert (HS : diff_shape data nm true N) by apply cdiff_shape.
    assert (HW : well_formed data N).
    { revert HS. generalize data. intros [|d c s1 s2|]; try contradiction. unfold diff_shape, well_formed, present, opt_len. generalize (Z.testbit nm 2).
      intros x (H1 & H2 & H3 & H4). destruct s1, s2; repeat match goal with H : _ /\ _ |- _ => destruct H end; auto. }
    assert (HNm : nm = 2%Z \/ nm = 6%Z).
    { cbn in HN. destruct HN as [[_ [HN|[HN|[]]]]|[_ HN]]; auto. }
    destruct (@normalize_accepts K K real_ops denoise data N bg var v z mode scale w) as [A1 A2]; auto; [apply real_has_diff|].
    assert (ES : supports data z = ((z =? 2) || ((z =? 6) && (nm =? 6)))%Z).
    { unfold data, cross_diff_data. cbn [supports]. destruct HNm as [->| ->]; cbn; destruct (z =? 6)%Z; reflexivity. }
    split; intros HZ.
    - apply A1. rewrite ES. destruct HZ as [->|[-> ->]]; reflexivity.
    - apply A2. rewrite ES. destruct (Z.eqb_spec z 2); [exfalso; auto|]. destruct (Z.eqb_spec z 6); [|reflexivity].
      destruct (Z.eqb_spec nm 6); [exfalso; auto|reflexivity].
  Qed.
End Combine.

Lemma unknown_word ws w : ws <> [] -> Forall no_bar ws -> In w ws ->
  ~ In (upper (strip w)) ["NONE"; "BASELINE"; "STANDARD"; "STRUCTURED"; "WEIGHTED"; "SUBTRACTED"; "COMPENSATED"] ->
  norm_from_string (join_bar ws) = Raise ValueError.
Proof.
  intros H HF Hin Hw. rewrite norm_from_words by assumption.
  assert (E : word_value w = None).
  { unfold word_value, norm_attribute. cbn [In] in Hw.
    repeat (match goal with |- (if String.eqb ?a ?b then _ else _) = None => destruct (String.eqb_spec a b) as [E|_]; [exfalso; apply Hw; rewrite E; tauto|] end).
    reflexivity. }
  assert (EN : words_value ws = None); [|rewrite EN; reflexivity].
  clear HF H. induction ws as [|x ws IH]; [destruct Hin|]. cbn. destruct Hin as [->|Hin]; [rewrite E; reflexivity|].
  rewrite IH by exact Hin. destruct (word_value x); reflexivity.
Qed.
