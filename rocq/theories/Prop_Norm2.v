(** Properties C21 to C24 and C26 to C28 of cddm/norm.py. *)
From Verif Require Import Base Kernels PairSpec CoreModel FftModel NormModel NormSpec CorrModel CorrSpec
  NormProofs NormProofs2 NormApi NormAuto NormMap NormApi2 NormMode NormMode2 NormMode3 NormApi3 Examples Prop_Norm1.
From Coq Require Import String Ascii Field.
Open Scope string_scope.
Open Scope nat_scope.
Local Notation length := List.length.
Set Implicit Arguments.

(* ------------------------------------------------------------------ *)
(** * C21: difference data and correlation data *)
Theorem C21_same_result (K : Fld) (W : nat -> Cx K) aligned aligned' f1 f2 t1 t2 n norm nm method norm' nm' N b1 b2 bg var v denoise w z mode :
  cross_call W f1 f2 t1 t2 n method N -> norm_arg norm nm -> norm_arg_diff true norm' nm' ->
  background bg b1 b2 -> scale_factor K var = Ok v ->
  (z = 2%Z /\ In nm [2; 3; 6; 7]%Z \/ z = 6%Z /\ In nm [6; 7]%Z /\ nm' = 6%Z) ->
  (mode = "corr" \/ mode = "diff") ->
  (let* data := ccorr W aligned f1 f2 t1 t2 n norm method None None None in
   normalize real_ops denoise data bg var (Some (NInt z)) mode false w) =
  (let* data := ccorr W aligned' f1 f2 t1 t2 n norm' (Some "diff") None None None in
   normalize real_ops denoise data bg var (Some (NInt z)) mode false w).
Proof.
  intros HC HN HN' HB HV HZ HM. rewrite (@ccorr_call K W aligned f1 f2 t1 t2 n norm nm method N HC HN). cbn [bind].
  rewrite (@ccorr_diff_call K W aligned' f1 f2 t1 t2 n norm' nm' N).
  2: { destruct HC as (H1 & H2 & H3 & _). repeat split; try apply H1; assumption. }
  2: exact HN'.
  cbn [bind]. apply same_result with (b1 := b1) (b2 := b2) (v := v); assumption.
Qed.
Print Assumptions C21_same_result.
Theorem C21_auto (K : Fld) (W : nat -> Cx K) aligned aligned' f t n norm nm method norm' N b bg var v denoise w mode :
  auto_call W f t n method N -> norm_arg norm nm -> norm_arg_diff false norm' 2%Z ->
  (bg = SOne b \/ bg = STwo b b) -> scale_factor K var = Ok v -> In nm [2; 3; 6; 7]%Z ->
  (mode = "corr" \/ mode = "diff") ->
  (let* data := acorr W aligned f t None n norm method None in
   normalize real_ops denoise data bg var (Some (NInt 2%Z)) mode false w) =
  (let* data := acorr W aligned' f t None n norm' (Some "diff") None in
   normalize real_ops denoise data bg var (Some (NInt 2%Z)) mode false w).
Proof.
  intros HC HN HN' HB HV HZ HM. rewrite (@acorr_call K W aligned f t n norm nm method N HC HN). cbn [bind].
  rewrite (@acorr_diff_call K W aligned' f t n norm' 2%Z N).
  2: { destruct HC as (H1 & H2 & H3 & H4 & _). split; [exact H1|]. split; assumption. }
  2: exact HN'.
  cbn [bind]. apply same_result_auto with (b := b) (v := v); assumption.
Qed.
Print Assumptions C21_auto.
Example C21_example :
  show_all showv (let* data := ccorr nW true nf1 nf2 (Some nt1) (Some nt2) (Some 5) (Some 6%Z) (Some "diff") None None None in
    normalize real_ops idn data (STwo (cz 1 0) (cz 1 1)) (STwo (q 3) (q 5)) (Some (NInt 6%Z)) "corr" false None) =
    Ok [Some (-1, 2); Some (17, 6); Some (1, 2); Some (-1, 2); None]%Z /\
  show_all showv (let* data := ccorr nW true nf1 nf2 (Some nt1) (Some nt2) (Some 5) (Some 7%Z) (Some "corr") None None None in
    normalize real_ops idn data (STwo (cz 1 0) (cz 1 1)) (STwo (q 3) (q 5)) (Some (NInt 6%Z)) "corr" false None) =
    Ok [Some (-1, 2); Some (17, 6); Some (1, 2); Some (-1, 2); None]%Z.
Proof. split; vm_compute; reflexivity. Qed.

(* ------------------------------------------------------------------ *)
(** * C22: the modes "corr" and "diff" *)
(** For every data, norm, weight, background: mode "diff" is 2 (u - corr), where u is
    the variance, or one if the result is scaled.  Only if a weight has to be computed
    from the data does it matter that smoothing commutes with this conversion. *)
Theorem C22_modes (K : Fld) denoise data bg var v norm scale w :
  scale_factor K var = Ok v -> v <> f0 K ->
  (w = None -> forall u l, denoise (map (fv_map (twice_minus K u)) l) = map (fv_map (twice_minus K u)) (denoise l)) ->
  normalize real_ops denoise data bg var norm "diff" scale w =
  on_result (twice_minus K (if scale then f1 K else v)) (normalize real_ops denoise data bg var norm "corr" scale w).
Proof. apply modes_real. Qed.
Print Assumptions C22_modes.
Theorem C22_modes_complex (K : Fld) denoise data bg var v norm scale w :
  scale_factor K var = Ok v -> v <> f0 K ->
  (w = None -> forall u l, denoise (map (fv_map (@twice_minus_c K u)) l) = map (fv_map (@twice_minus_c K u)) (denoise l)) ->
  normalize complex_ops denoise data bg var norm "diff" scale w =
  on_result (@twice_minus_c K (if scale then f1 K else v)) (normalize complex_ops denoise data bg var norm "corr" scale w).
Proof. apply modes_complex. Qed.
Print Assumptions C22_modes_complex.
(** For norms that are not weighted there is no condition at all. *)
Theorem C22_modes_unweighted (K : Fld) denoise data bg var v norm w z :
  scale_factor K var = Ok v -> _default_norm_from_data data norm = Ok z -> (Z.land z 3 <> 3)%Z ->
  normalize real_ops denoise data bg var (option_map NInt norm) "diff" false w =
  on_result (twice_minus K v) (normalize real_ops denoise data bg var (option_map NInt norm) "corr" false w).
Proof. apply modes_unweighted_real. Qed.
Print Assumptions C22_modes_unweighted.
Theorem C22_back_and_forth (K : Fld) (l : list (fval K)) var v :
  scale_factor K var = Ok v ->
  (let* d := _corr2diff real_ops l var in _diff2corr real_ops d var) = Ok l /\
  (let* d := _diff2corr real_ops l var in _corr2diff real_ops d var) = Ok l.
Proof. apply back_and_forth. Qed.
Print Assumptions C22_back_and_forth.
Example C22_example :
  show_all showv (let* data := ccorr nW true nf1 nf2 (Some nt1) (Some nt2) (Some 5) (Some 7%Z) (Some "corr") None None None in
    normalize real_ops idn data (STwo (cz 1 0) (cz 1 1)) (STwo (q 3) (q 5)) (Some (NInt 7%Z)) "corr" true None) =
    Ok [Some (-107584116632079, 185206775093032); Some (4616400397, 7335246924); Some (0, 1); Some (-107584116632079, 185206775093032); None]%Z /\
  show_all showv (let* data := ccorr nW true nf1 nf2 (Some nt1) (Some nt2) (Some 5) (Some 7%Z) (Some "corr") None None None in
    normalize real_ops idn data (STwo (cz 1 0) (cz 1 1)) (STwo (q 3) (q 5)) (Some (NInt 7%Z)) "diff" true None) =
    Ok [Some (292790891725111, 92603387546516); Some (2718846527, 3667623462); Some (2, 1); Some (292790891725111, 92603387546516); None]%Z.
Proof. split; vm_compute; reflexivity. Qed.

(* ------------------------------------------------------------------ *)
(** * C23: offsets and gains *)
(** Signals [g x + c] with backgrounds [g b + c] and variance [g^2 v] give [g^2] times
    the result; the offsets [c1], [c2] must be zero for the norms 1 and 2. *)
Theorem C23_affine (K : Fld) (W : nat -> Cx K) aligned f1 f2 t1 t2 n norm nm method N b1 b2 v z g c1 c2 denoise w :
  cross_call W f1 f2 t1 t2 n method N -> norm_arg norm nm ->
  data_supports (Z.testbit nm 1) (Z.testbit nm 2) z = true -> (Z.land z 3 <> 3)%Z ->
  (In z [5; 6; 9; 10; 13; 14]%Z \/ (c1 = c0 K /\ c2 = c0 K)) ->
  (let* data := ccorr W aligned (map (affine g c1) f1) (map (affine g c2) f2) t1 t2 n norm method None None None in
   normalize real_ops denoise data (STwo (affine g c1 b1) (affine g c2 b2)) (SOne (fmul K (fmul K g g) v)) (Some (NInt z)) "corr" false w) =
  on_result (fmul K (fmul K g g))
    (let* data := ccorr W aligned f1 f2 t1 t2 n norm method None None None in
     normalize real_ops denoise data (STwo b1 b2) (SOne v) (Some (NInt z)) "corr" false w).
Proof. apply affine_real. Qed.
Print Assumptions C23_affine.
Theorem C23_affine_complex (K : Fld) (W : nat -> Cx K) aligned f1 f2 t1 t2 n norm nm method N b1 b2 v z g c1 c2 denoise w :
  0 < N -> cross_call W f1 f2 t1 t2 n method N -> norm_arg norm nm ->
  data_supports (Z.testbit nm 1) (Z.testbit nm 2) z = true -> (Z.land z 3 <> 3)%Z ->
  (In z [5; 6; 9; 10; 13; 14]%Z \/ (c1 = c0 K /\ c2 = c0 K)) ->
  (let* data := ccorr_complex W aligned (map (affine g c1) f1) (map (affine g c2) f2) t1 t2 n norm method None None None in
   normalize complex_ops denoise data (STwo (affine g c1 b1) (affine g c2 b2)) (SOne (fmul K (fmul K g g) v)) (Some (NInt z)) "corr" false w) =
  on_result (cscal (fmul K g g))
    (let* data := ccorr_complex W aligned f1 f2 t1 t2 n norm method None None None in
     normalize complex_ops denoise data (STwo b1 b2) (SOne v) (Some (NInt z)) "corr" false w).
Proof. apply affine_complex. Qed.
Print Assumptions C23_affine_complex.
(** The statement of C23 itself: adding constants changes nothing. *)
Theorem C23_offset (K : Fld) (W : nat -> Cx K) aligned f1 f2 t1 t2 n norm nm method N b1 b2 v z c1 c2 denoise w :
  cross_call W f1 f2 t1 t2 n method N -> norm_arg norm nm ->
  data_supports (Z.testbit nm 1) (Z.testbit nm 2) z = true -> In z [5; 6; 9; 10; 13; 14]%Z ->
  (let* data := ccorr W aligned (map (fun x => cadd x c1) f1) (map (fun y => cadd y c2) f2) t1 t2 n norm method None None None in
   normalize real_ops denoise data (STwo (cadd b1 c1) (cadd b2 c2)) (SOne v) (Some (NInt z)) "corr" false w) =
  (let* data := ccorr W aligned f1 f2 t1 t2 n norm method None None None in
   normalize real_ops denoise data (STwo b1 b2) (SOne v) (Some (NInt z)) "corr" false w).
Proof. apply offset_real. Qed.
Print Assumptions C23_offset.
Example C23_example :
  data_supports (Z.testbit 7 1) (Z.testbit 7 2) 10%Z = true /\
  show_all showv (let* data := ccorr nW true (map (affine (q 3) (cz 5 1)) nf1) (map (affine (q 3) (cz 2 7)) nf2) (Some nt1) (Some nt2) (Some 5) (Some 7%Z) (Some "corr") None None None in
    normalize real_ops idn data (STwo (affine (q 3) (cz 5 1) (cz 1 0)) (affine (q 3) (cz 2 7) (cz 1 1))) (SOne (q 36)) (Some (NInt 10%Z)) "corr" false None) =
    Ok [Some (99, 4); Some (34, 1); Some (99, 4); Some (99, 4); None]%Z /\
  show_all showv (let* data := ccorr nW true nf1 nf2 (Some nt1) (Some nt2) (Some 5) (Some 7%Z) (Some "corr") None None None in
    normalize real_ops idn data (STwo (cz 1 0) (cz 1 1)) (SOne (q 4)) (Some (NInt 10%Z)) "corr" false None) =
    Ok [Some (11, 4); Some (34, 9); Some (11, 4); Some (11, 4); None]%Z.
Proof. split; [reflexivity|]. split; vm_compute; reflexivity. Qed.
(** Norms 1 and 2 are not blind to offsets. *)
Theorem C23_offset_baseline_refuted : exists (f1 f2 : list (Cx QcF)) (c : Cx QcF) b1 b2 v,
  (let* data := ccorr nW true (map (fun x => cadd x c) f1) f2 None None (Some 1) (Some 7%Z) (Some "corr") None None None in
   normalize real_ops idn data (STwo (cadd b1 c) b2) (SOne v) (Some (NInt 1%Z)) "corr" false None) <>
  (let* data := ccorr nW true f1 f2 None None (Some 1) (Some 7%Z) (Some "corr") None None None in
   normalize real_ops idn data (STwo b1 b2) (SOne v) (Some (NInt 1%Z)) "corr" false None).
Proof.
  exists [cz 1 0], [cz 1 0], (cz 1 0), (cz 0 0), (cz 0 0), (q 1). intros H.
  apply (f_equal (show_all showv)) in H. vm_compute in H. discriminate.
Qed.
Print Assumptions C23_offset_baseline_refuted.

(* ------------------------------------------------------------------ *)
(** * C24: complex data *)
(** The real part of the normalized complex data is the normalization of the real
    parts: for all norms, modes and arguments, if the weight of a weighted norm is given. *)
Theorem C24_real_part (K : Fld) denoise denoise' (data : cdata K (Cx K)) bg var norm mode scale w :
  is_corr data = true -> no_smoothing data norm w ->
  on_result (@cre K) (normalize complex_ops denoise data bg var norm mode scale w) =
  normalize real_ops denoise' (real_data data) bg var norm mode scale (option_map (map (fv_map (@cre K))) w).
Proof. apply normalize_re. Qed.
Print Assumptions C24_real_part.
Example C24_example :
  no_smoothing (DCorr [cz 1 2; cz 3 4] [2; 0] (Some [q 3; q 4]) (Some [cz 1 1; cz 0 0]) (Some [cz 0 1; cz 0 0])) (Some (NInt 6%Z)) None /\
  show_all showcv (normalize complex_ops idn (DCorr [cz 1 2; cz 3 4] [2; 0] (Some [q 3; q 4]) (Some [cz 1 1; cz 0 0]) (Some [cz 0 1; cz 0 0]))
     (SOne (cz 1 1)) (SOne (q 2)) (Some (NInt 6%Z)) "corr" false None) =
    Ok [Some (7, 4, (5, 4)); None]%Z /\
  show_all showv (normalize real_ops idn (DCorr [q 1; q 3] [2; 0] (Some [q 3; q 4]) (Some [cz 1 1; cz 0 0]) (Some [cz 0 1; cz 0 0]))
     (SOne (cz 1 1)) (SOne (q 2)) (Some (NInt 6%Z)) "corr" false None) =
    Ok [Some (7, 4); None]%Z.
Proof.
  split; [|split; vm_compute; reflexivity]. intros _ z nz E1 E2. injection E1 as <-. injection E2 as <-. discriminate.
Qed.
(** A weight computed from complex data uses both parts, so that the real part of a
    weighted result is not the weighted result of the real parts. *)
Theorem C24_weighted_refuted : exists (data : cdata QcF (Cx QcF)) bg var,
  on_result (@cre QcF) (normalize complex_ops idn data bg var (Some (NInt 3%Z)) "corr" false None) <>
  normalize real_ops idn (real_data data) bg var (Some (NInt 3%Z)) "corr" false None.
Proof.
  exists (DCorr [cz 1 3] [1] (Some [q 1]) None None), (SOne (cz 0 0)), (SOne (q 1)). intros H.
  apply (f_equal (show_all showv)) in H. vm_compute in H. discriminate.
Qed.
Print Assumptions C24_weighted_refuted.
(** Delays without pairs have no finite value, for all norms, modes and both types. *)
Theorem C24_empty_delay (K : Fld) denoise (data : cdata K (Cx K)) bg var norm mode scale w i l x :
  nth i (counts data) 0 = 0 -> normalize complex_ops denoise data bg var norm mode scale w = Ok l ->
  nth_error l i = Some x -> x = NonFin.
Proof. apply normalize_empty. apply complex_empty_law. Qed.
Print Assumptions C24_empty_delay.
Theorem C24_empty_delay_real (K : Fld) denoise (data : cdata K K) bg var norm mode scale w i l x :
  nth i (counts data) 0 = 0 -> normalize real_ops denoise data bg var norm mode scale w = Ok l ->
  nth_error l i = Some x -> x = NonFin.
Proof. apply normalize_empty. apply real_empty_law. Qed.
Print Assumptions C24_empty_delay_real.

(* ------------------------------------------------------------------ *)
(** * C26: flags and strings *)
Theorem C26_flags structured subtracted weighted compensated :
  In (norm_flags structured subtracted weighted compensated) [1; 2; 3; 5; 6; 7; 9; 10; 11; 13; 14; 15]%Z.
Proof. apply norm_flags_supported. Qed.
Print Assumptions C26_flags.
Theorem C26_strings s z : norm_from_string s = Ok z -> In z [1; 2; 3; 5; 6; 7; 9; 10; 11; 13; 14; 15]%Z.
Proof. apply norm_from_string_supported. Qed.
Print Assumptions C26_strings.
(** Words separated by bars: the union of their flags, with STANDARD if neither
    STANDARD nor STRUCTURED is among them; an unknown word raises ValueError. *)
Theorem C26_words ws : ws <> [] -> Forall no_bar ws ->
  norm_from_string (join_bar ws) = match words_value ws with Some v => Ok (complete v) | None => Raise ValueError end.
Proof. apply norm_from_words. Qed.
Print Assumptions C26_words.
Theorem C26_unknown_word ws w : ws <> [] -> Forall no_bar ws -> In w ws ->
  ~ In (upper (strip w)) ["NONE"; "BASELINE"; "STANDARD"; "STRUCTURED"; "WEIGHTED"; "SUBTRACTED"; "COMPENSATED"] ->
  norm_from_string (join_bar ws) = Raise ValueError.
Proof. apply unknown_word. Qed.
Print Assumptions C26_unknown_word.
Example C26_example :
  Forall no_bar [" subtracted"; "Weighted "] /\ join_bar [" subtracted"; "Weighted "] = " subtracted|Weighted " /\
  norm_from_string " subtracted|Weighted " = Ok 7%Z /\ norm_from_string "compensated" = Ok 9%Z /\
  norm_from_string "structured|magic" = Raise ValueError.
Proof. split; [repeat constructor; discriminate|]. repeat split. Qed.
(** COMPENSATED together with SUBTRACTED (13, 14, 15) is SUBTRACTED alone (5, 6, 7). *)
Theorem C26_both (K : Fld) V (O : NormOps K V) denoise data bg var z mode scale w :
  is_corr data = true -> In z [5; 6; 7]%Z ->
  normalize O denoise data bg var (Some (NInt (z + 8)%Z)) mode scale w = normalize O denoise data bg var (Some (NInt z)) mode scale w.
Proof. apply normalize_both. Qed.
Print Assumptions C26_both.
(** Not so for difference data, which rejects 14 but accepts 6. *)
Theorem C26_both_diff_refuted : exists (data : cdata QcF QcF),
  normalize real_ops idn data (SOne (cz 0 0)) (SOne (q 1)) (Some (NInt 14%Z)) "corr" false None <>
  normalize real_ops idn data (SOne (cz 0 0)) (SOne (q 1)) (Some (NInt 6%Z)) "corr" false None.
Proof.
  exists (DDiff [q 1] [1] (Some [cz 0 0]) (Some [cz 0 0])). intros H.
  apply (f_equal (show_all showv)) in H. vm_compute in H. discriminate.
Qed.
Print Assumptions C26_both_diff_refuted.

(* ------------------------------------------------------------------ *)
(** * C27: which norms can be asked for *)
(** For any data with arrays of equal length, a background and a variance: the norms
    accepted are exactly those supported by the arrays present; all others raise
    ValueError. *)
Theorem C27_accepts (K : Fld) denoise (data : cdata K K) N bg var v z mode scale w :
  well_formed data N -> (mode = "corr" \/ mode = "diff") -> bg <> SNone -> scale_factor K var = Ok v ->
  (supports data z = true -> exists l, normalize real_ops denoise data bg var (Some (NInt z)) mode scale w = Ok l) /\
  (supports data z = false -> normalize real_ops denoise data bg var (Some (NInt z)) mode scale w = Raise ValueError).
Proof. apply normalize_accepts. apply real_has_diff. Qed.
Print Assumptions C27_accepts.
Theorem C27_accepts_complex (K : Fld) denoise (data : cdata K (Cx K)) N bg var v z mode scale w :
  is_corr data = true -> well_formed data N -> (mode = "corr" \/ mode = "diff") -> bg <> SNone -> scale_factor K var = Ok v ->
  (supports data z = true -> exists l, normalize complex_ops denoise data bg var (Some (NInt z)) mode scale w = Ok l) /\
  (supports data z = false -> normalize complex_ops denoise data bg var (Some (NInt z)) mode scale w = Raise ValueError).
Proof. intros H. apply normalize_accepts. intros E. rewrite E in H. discriminate. Qed.
Print Assumptions C27_accepts_complex.
(** The data computed with the norm [nm] supports exactly the norms with no more flags,
    counting COMPENSATED as SUBTRACTED; in particular [nm] itself. *)
Theorem C27_cross (K : Fld) (W : nat -> Cx K) aligned f1 f2 t1 t2 n norm nm method N bg var v z mode scale w denoise :
  cross_call W f1 f2 t1 t2 n method N -> norm_arg norm nm ->
  (mode = "corr" \/ mode = "diff") -> bg <> SNone -> scale_factor K var = Ok v ->
  let r := (let* data := ccorr W aligned f1 f2 t1 t2 n norm method None None None in
            normalize real_ops denoise data bg var (Some (NInt z)) mode scale w) in
  (data_supports (Z.testbit nm 1) (Z.testbit nm 2) z = true -> exists l, r = Ok l) /\
  (data_supports (Z.testbit nm 1) (Z.testbit nm 2) z = false -> r = Raise ValueError).
Proof. apply cross_accepts. Qed.
Print Assumptions C27_cross.
Theorem C27_auto (K : Fld) (W : nat -> Cx K) aligned f t n norm nm method N bg var v z mode scale w denoise :
  auto_call W f t n method N -> norm_arg norm nm ->
  (mode = "corr" \/ mode = "diff") -> bg <> SNone -> scale_factor K var = Ok v ->
  let r := (let* data := acorr W aligned f t None n norm method None in
            normalize real_ops denoise data bg var (Some (NInt z)) mode scale w) in
  (data_supports (Z.testbit nm 1) (Z.testbit nm 2) z = true -> exists l, r = Ok l) /\
  (data_supports (Z.testbit nm 1) (Z.testbit nm 2) z = false -> r = Raise ValueError).
Proof. apply auto_accepts. Qed.
Print Assumptions C27_auto.
Theorem C27_cross_diff (K : Fld) (W : nat -> Cx K) aligned f1 f2 t1 t2 n norm nm N bg var v z mode scale w denoise :
  cross_diff_call f1 f2 t1 t2 n N -> norm_arg_diff true norm nm ->
  (mode = "corr" \/ mode = "diff") -> bg <> SNone -> scale_factor K var = Ok v ->
  let r := (let* data := ccorr W aligned f1 f2 t1 t2 n norm (Some "diff") None None None in
            normalize real_ops denoise data bg var (Some (NInt z)) mode scale w) in
  ((z = 2%Z \/ (z = 6%Z /\ nm = 6%Z)) -> exists l, r = Ok l) /\
  (~ (z = 2%Z \/ (z = 6%Z /\ nm = 6%Z)) -> r = Raise ValueError).
Proof. apply cross_diff_accepts. Qed.
Print Assumptions C27_cross_diff.
Theorem C27_own_norm nm : In nm [1; 2; 3; 5; 6; 7]%Z -> data_supports (Z.testbit nm 1) (Z.testbit nm 2) nm = true.
Proof. intros H. cbn in H. decompose [or] H; try contradiction; subst nm; reflexivity. Qed.
Print Assumptions C27_own_norm.
(** Without a norm the data decides on one which it supports. *)
Theorem C27_default (K : Fld) (data : cdata K K) N : well_formed data N ->
  exists z, _default_norm_from_data data None = Ok z /\ supports data z = true.
Proof. apply default_supported. Qed.
Print Assumptions C27_default.
Example C27_example :
  map (data_supports (Z.testbit 5 1) (Z.testbit 5 2)) [1; 2; 3; 5; 6; 7; 9; 10; 11; 13; 14; 15; 4; 8]%Z =
    [true; false; false; true; false; false; true; false; false; true; false; false; false; false].
Proof. reflexivity. Qed.

(* ------------------------------------------------------------------ *)
(** * C28: fold_data; data[-i] is cell 2n-1-i *)
Theorem C28_positive (K : Fld) (data : list (Cx K)) n : 0 < n -> length data = 2 * n - 1 ->
  fold_data true data 1%Z = Ok (map (fun i => nth i data (c0 K)) (seq 0 n)).
Proof. apply fold_positive. Qed.
Print Assumptions C28_positive.
Theorem C28_mean (K : Fld) (data : list (Cx K)) n : 0 < n -> length data = 2 * n - 1 ->
  fold_data true data 0%Z =
  Ok (map (fun i => if i =? 0 then nth 0 data (c0 K)
                    else cscal (fdiv K (f1 K) (fadd K (f1 K) (f1 K)))
                           (cadd (nth i data (c0 K)) (conj (nth (2 * n - 1 - i) data (c0 K))))) (seq 0 n)).
Proof. apply fold_mean. Qed.
Print Assumptions C28_mean.
(** mode=-1 gives data[-(i+1)] instead of data[-i]. *)
Theorem C28_negative_shifted (K : Fld) (data : list (Cx K)) n : 0 < n -> length data = 2 * n - 1 ->
  fold_data true data (-1)%Z =
  Ok (map (fun i => if i =? 0 then nth 0 data (c0 K) else nth (2 * n - 1 - (i + 1)) data (c0 K)) (seq 0 n)).
Proof. intros H1 H2. rewrite (@fold_negative K data n H1 H2). apply f_equal, map_ext. intros i. destruct i; [reflexivity|]. cbn [Nat.eqb]. f_equal. lia. Qed.
Print Assumptions C28_negative_shifted.
Theorem C28_negative_refuted : exists (data : list (Cx QcF)) n, 0 < n /\ length data = 2 * n - 1 /\
  fold_data true data (-1)%Z <>
  Ok (map (fun i => if i =? 0 then nth 0 data (c0 QcF) else nth (2 * n - 1 - i) data (c0 QcF)) (seq 0 n)).
Proof.
  exists [cz 0 0; cz 1 0; cz (-1) 0], 2. split; [auto|]. split; [reflexivity|]. intros H.
  apply (f_equal (show_all showc)) in H. vm_compute in H. discriminate.
Qed.
Print Assumptions C28_negative_refuted.
Theorem C28_errors (K : Fld) (data : list (Cx K)) mode :
  fold_data false data mode = Raise ValueError /\
  (mode <> 0%Z -> mode <> 1%Z -> mode <> (-1)%Z -> fold_data true data mode = Raise ValueError).
Proof.
  split; [reflexivity|]. intros H1 H2 H3. unfold fold_data. cbn [negb].
  apply Z.eqb_neq in H1, H2, H3. rewrite H1, H2, H3. reflexivity.
Qed.
Print Assumptions C28_errors.
Example C28_example :
  show_all showc (fold_data true [cz 0 0; cz 1 1; cz 2 2; cz (-2) 0; cz (-1) 0] 0%Z) =
    Ok [(0, 1, (0, 1)); (0, 1, (1, 2)); (0, 1, (1, 1))]%Z /\
  show_all showc (fold_data true [cz 0 0; cz 1 1; cz 2 2; cz (-2) 0; cz (-1) 0] (-1)%Z) =
    Ok [(0, 1, (0, 1)); (-2, 1, (0, 1)); (2, 1, (2, 1))]%Z.
Proof. split; vm_compute; reflexivity. Qed.
