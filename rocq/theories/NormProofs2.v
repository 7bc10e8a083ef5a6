(** normalize applied to the tuples of ccorr and acorr. *)
From Verif Require Import Base Kernels PairSpec KernelProofs PairLemmas CoreModel CoreProofs CoreProofs3 NormModel NormSpec
  CorrModel CorrProofs CorrProofs2 NormProofs.
From Coq Require Import String Field ZifyBool ZifyNat.
Open Scope string_scope.
Open Scope nat_scope.
Local Notation length := List.length.
Set Implicit Arguments.

(** Which norms an array tuple supports: [structured] tells whether it has the sums of
    squares and [subtracted] whether it has the sums of the signals. *)
Definition supported_norms : list Z := [1; 2; 3; 5; 6; 7; 9; 10; 11; 13; 14; 15]%Z.
Definition data_supports (structured subtracted : bool) (norm : Z) : bool :=
  in_list norm supported_norms &&
  (negb (Z.testbit norm 1) || structured) &&
  (negb (Z.testbit norm 2 || Z.testbit norm 3) || subtracted).

Lemma in_list_In z l : in_list z l = true <-> In z l.
Proof.
  unfold in_list. rewrite existsb_exists. split.
  - intros (x & Hx & E). apply Z.eqb_eq in E. subst. exact Hx.
  - intros H. exists z. split; [exact H|apply Z.eqb_refl].
Qed.

Lemma norm_from_ccorr_data_spec has_sq has_s1 z :
  _norm_from_ccorr_data has_sq has_s1 (Some z) =
  if data_supports has_sq has_s1 z then Ok z else Raise ValueError.
Proof.
  unfold data_supports, supported_norms. destruct (in_list z [1; 2; 3; 5; 6; 7; 9; 10; 11; 13; 14; 15]%Z) eqn:E.
  - assert (H : In z [1; 2; 3; 5; 6; 7; 9; 10; 11; 13; 14; 15]%Z) by (apply in_list_In; exact E).
    cbn [In] in H. destruct has_sq, has_s1;
    decompose [or] H; try subst z; try reflexivity; contradiction.
  - unfold _norm_from_ccorr_data. rewrite E. cbn [negb andb].
    destruct (negb has_s1), (negb has_sq); reflexivity.
Qed.
Lemma norm_from_cdiff_data_spec h1 h2 z :
  _norm_from_cdiff_data h1 h2 (Some z) =
  if ((z =? 2) || ((z =? 6) && h1 && h2))%Z then Ok z else Raise ValueError.
Proof.
  unfold _norm_from_cdiff_data, in_list. cbn [existsb]. change (Z.lor NORM_STRUCTURED NORM_SUBTRACTED) with 6%Z.
  unfold NORM_STRUCTURED.
  destruct (Z.eqb_spec z 2) as [->|N2]; [destruct h1, h2; reflexivity|].
  destruct (Z.eqb_spec z 6) as [->|N6]; [destruct h1, h2; reflexivity|]. reflexivity.
Qed.

Section Norm.
  Variable K : Fld.
  Notation C := (Cx K).
  Notation pair := (sample C * sample C)%type.
  Add Field Kf2 : (flaw K).

  Section Any.
    Variables (V : Type) (O : NormOps K V) (denoise : list (fval V) -> list (fval V)).

    Lemma normalize_unweighted data b1 b2 bg variance z mode w :
      _default_norm_from_data data (Some z) = Ok z -> (Z.land z 3 <> 3)%Z ->
      (bg = STwo b1 b2 \/ (bg = SOne b1 /\ b2 = b1)) -> (mode = "corr" \/ mode = "diff") -> data <> DBad ->
      normalize O denoise data bg variance (Some (NInt z)) mode false w =
      normalize_formula O data b1 b2 variance z mode.
    Proof.
      intros HD HW HB HM HX. unfold normalize, normalize_body.
      assert (E1 : exists m, _method_from_data data = Ok m) by (destruct data; [eexists; reflexivity|eexists; reflexivity|congruence]).
      destruct E1 as [mm ->]. cbn [bind].
      assert (E2 : _inspect_mode mode = Ok mode) by (destruct HM as [->| ->]; reflexivity). rewrite E2. cbn [bind].
      rewrite HD. cbn [bind].
      assert (E3 : _inspect_background bg z = Ok (b1, b2)) by (destruct HB as [->|[-> ->]]; reflexivity). rewrite E3. cbn [bind].
      change NORM_WEIGHTED with 3%Z. replace (Z.land z 3 =? 3)%Z with false by (symmetry; apply Z.eqb_neq; exact HW).
      destruct (normalize_formula O data b1 b2 variance z mode); reflexivity.
    Qed.
  End Any.

  Lemma nth_fresh (M : CMon) N g d i : i < N -> nth i (plus_cells M (repeat (m0 M) N) g) d = g i.
  Proof. intros H. rewrite plus_cells_zero. rewrite (nth_map_seq g d) by exact H. reflexivity. Qed.
  Lemma len_fresh (M : CMon) N g : length (plus_cells M (repeat (m0 M) N) g) = N.
  Proof. rewrite plus_cells_zero, map_length, seq_length. reflexivity. Qed.

  Variable P : nat -> list pair.
  Variable N : nat.
  Variable nm : Z.
  Variables (b1 b2 : C) (bg : statarg C) (variance : statarg K) (v : K).
  Hypothesis HB : bg = STwo b1 b2 \/ (bg = SOne b1 /\ b2 = b1).

  Definition cross_real_data : cdata K K :=
    corr_tuple (plus_cells (fmon K) (repeat (f0 K) N) (fun i => Sum (fmon K) (P i) (@re_prod K))) None None None None N nm P.
  Definition cross_complex_data : cdata K C :=
    corr_tuple (plus_cells (cmon K) (repeat (c0 K) N) (fun i => Sum (cmon K) (P i) (@cx_prod K))) None None None None N nm P.

  Lemma supports_data V (d : list V) z : data_supports (has_flag nm NORM_STRUCTURED) (has_flag nm NORM_SUBTRACTED) z = true ->
    _default_norm_from_data (corr_tuple d None None None None N nm P) (Some z) = Ok z.
  Proof.
    intros H. unfold corr_tuple, _default_norm_from_data. rewrite norm_from_ccorr_data_spec.
    replace (given (if has_flag nm NORM_STRUCTURED then _ else None)) with (has_flag nm NORM_STRUCTURED) by (destruct (has_flag nm NORM_STRUCTURED); reflexivity).
    replace (given (if has_flag nm NORM_SUBTRACTED then _ else None)) with (has_flag nm NORM_SUBTRACTED) by (destruct (has_flag nm NORM_SUBTRACTED); reflexivity).
    rewrite H. reflexivity.
  Qed.

  (** The value of a delay with pairs [Q]. *)
  Local Infix "-" := (fsub K).
  Local Infix "+" := (fadd K).
  Definition real_value (z : Z) (Q : list pair) : K :=
    if (z =? 1)%Z then mean Q (@re_prod K) - cre (cmul (conj b1) b2)
    else if (z =? 2)%Z then v - half K (mean Q (@sq_diff K)) + half K (cnorm2 (csub b1 b2))
    else if ((z =? 5) || (z =? 13))%Z then mean Q (fun p => cre (prod_about b1 b2 p))
    else if (z =? 9)%Z then mean Q (@re_prod K) - cre (cmul (conj (cmean Q (@fst_val K))) (cmean Q (@snd_val K)))
    else if ((z =? 6) || (z =? 14))%Z then v - half K (mean Q (sqdiff_about b1 b2))
    else v - half K (mean Q (@sq_diff K) - cnorm2 (csub (cmean Q (@fst_val K)) (cmean Q (@snd_val K)))).
  Definition complex_value (z : Z) (Q : list pair) : C :=
    if (z =? 1)%Z then csub (cmean Q (@cx_prod K)) (cmul (conj b1) b2)
    else if (z =? 2)%Z then
      (v - half K (mean Q (@sq_diff K)) + half K (cnorm2 (csub b1 b2)),
       v - half K (mean Q (sqdiff_i_about (c0 K) (c0 K))) + half K (cnorm2 (csub b2 (times_i b1))))
    else if ((z =? 5) || (z =? 13))%Z then cmean Q (prod_about b1 b2)
    else if (z =? 9)%Z then csub (cmean Q (@cx_prod K)) (cmul (conj (cmean Q (@fst_val K))) (cmean Q (@snd_val K)))
    else if ((z =? 6) || (z =? 14))%Z then
      (v - half K (mean Q (sqdiff_about b1 b2)), v - half K (mean Q (sqdiff_i_about b1 b2)))
    else
      (v - half K (mean Q (@sq_diff K) - cnorm2 (csub (cmean Q (@fst_val K)) (cmean Q (@snd_val K)))),
       v - half K (mean Q (sqdiff_i_about (c0 K) (c0 K)) -
                   cnorm2 (csub (cmean Q (@snd_val K)) (times_i (cmean Q (@fst_val K)))))).

  Definition unweighted (z : Z) : bool := negb (Z.land z 3 =? 3)%Z.
  (** the structured norms need a variance *)
  Definition variance_ok (z : Z) : Prop := Z.testbit z 1 = true -> scale_factor K variance = Ok v.

  Lemma cells_ok_map V lens (f g : nat -> fval V) : forallb (Nat.eqb N) lens = true -> (forall i, i < N -> f i = g i) ->
    cells lens N f = Ok (map g (seq 0 N)).
  Proof.
    intros H E. unfold cells. rewrite H. f_equal. apply map_ext_in. intros i Hi. apply in_seq in Hi. apply E. lia.
  Qed.

  Ltac split_norm z H := 
    let H' := fresh in
    assert (H' : In z supported_norms) by
      (apply in_list_In; unfold data_supports in H; apply andb_prop in H; destruct H as [H _]; apply andb_prop in H; apply H);
    unfold supported_norms in H'; cbn [In] in H';
    repeat (destruct H' as [<-|H']; [|]); [..|contradiction].

  Ltac run_cell :=
    intros i Hi; rewrite ?(@nth_fresh (fmon K)), ?(@nth_fresh (cmon K)), ?(@nth_fresh natmon) by exact Hi;
    let E := fresh "E" in destruct (P i) eqn:E; [reflexivity|rewrite <- E];
    assert (HP : P i <> []) by (rewrite E; discriminate);
    first [ exact (@corr_baseline_real K (P i) HP b1 b2) | exact (@struct_baseline_real K (P i) HP b1 b2 v)
          | exact (@corr_subtracted_real K (P i) HP b1 b2) | exact (@struct_subtracted_real K (P i) HP b1 b2 v)
          | exact (@corr_compensated_real K (P i) HP) | exact (@struct_compensated_real K (P i) HP v)
          | exact (@corr_baseline_complex K (P i) HP b1 b2) | exact (@struct_baseline_complex K (P i) HP b1 b2 v)
          | exact (@corr_subtracted_complex K (P i) HP b1 b2) | exact (@struct_subtracted_complex K (P i) HP b1 b2 v)
          | exact (@corr_compensated_complex K (P i) HP) | exact (@struct_compensated_complex K (P i) HP v)
          | exact (@cdiff_1 K (P i) HP b1 b2) | exact (@cdiff_3 K (P i) HP b1 b2) ].
  Ltac run_all z HS HU HV :=
    pose proof HS as HS'; unfold data_supports in HS'; apply andb_prop in HS'; destruct HS' as [HS1 HS3];
    apply andb_prop in HS1; destruct HS1 as [_ HS2];
    rewrite ?(@len_fresh (fmon K)), ?(@len_fresh (cmon K));
    split_norm z HS; try discriminate HU; cbn [Z.eqb Pos.eqb orb];
      cbn [Z.testbit Pos.testbit Pos.pred_N negb orb andb N.testbit Pos.pred_double] in HS2, HS3;
      try (rewrite (HV eq_refl); cbn [bind]);
      try (destruct (has_flag nm NORM_STRUCTURED); [|discriminate HS2]);
      try (destruct (has_flag nm NORM_SUBTRACTED); [|discriminate HS3]);
      cbn [need bind start];
      cbn [String.eqb Ascii.eqb Bool.eqb];
      (erewrite cells_ok_map;
      [ reflexivity
      | cbn [forallb]; rewrite ?(@len_fresh (fmon K)), ?(@len_fresh (cmon K)), ?(@len_fresh natmon), ?Nat.eqb_refl; reflexivity
      | run_cell ]).

  Lemma normalize_cross_real denoise z w :
    data_supports (has_flag nm NORM_STRUCTURED) (has_flag nm NORM_SUBTRACTED) z = true -> unweighted z = true -> variance_ok z ->
    normalize real_ops denoise cross_real_data bg variance (Some (NInt z)) "corr" false w =
    Ok (at_delays N P (real_value z)).
  Proof.
    intros HS HU HV.
    rewrite (@normalize_unweighted _ real_ops denoise cross_real_data b1 b2); auto.
    2: { apply supports_data; exact HS. }
    2: { intros E. unfold unweighted in HU. rewrite E in HU. discriminate. }
    2: { discriminate. }
    unfold cross_real_data, corr_tuple, normalize_formula, at_delays, real_value.
    run_all z HS HU HV.
  Qed.
  Lemma normalize_cross_complex denoise z w :
    data_supports (has_flag nm NORM_STRUCTURED) (has_flag nm NORM_SUBTRACTED) z = true -> unweighted z = true -> variance_ok z ->
    normalize complex_ops denoise cross_complex_data bg variance (Some (NInt z)) "corr" false w =
    Ok (at_delays N P (complex_value z)).
  Proof.
    intros HS HU HV.
    rewrite (@normalize_unweighted _ complex_ops denoise cross_complex_data b1 b2); auto.
    2: { apply supports_data; exact HS. }
    2: { intros E. unfold unweighted in HU. rewrite E in HU. discriminate. }
    2: { discriminate. }
    unfold cross_complex_data, corr_tuple, normalize_formula, at_delays, complex_value.
    run_all z HS HU HV.
  Qed.

  (** difference data *)
  Definition cross_diff_data : cdata K K :=
    DDiff (plus_cells (fmon K) (repeat (f0 K) N) (fun i => Sum (fmon K) (P i) (@sq_diff K)))
      (plus_cells natmon (repeat O N) (fun i => length (P i)))
      (if has_flag nm NORM_SUBTRACTED
       then Some (plus_cells (cmon K) (repeat (c0 K) N) (fun i => Sum (cmon K) (P i) (@CorrProofs.first K))) else None)
      (if has_flag nm NORM_SUBTRACTED
       then Some (plus_cells (cmon K) (repeat (c0 K) N) (fun i => Sum (cmon K) (P i) (@CorrProofs.second K))) else None).
  Definition diff_value (z : Z) (Q : list pair) : K :=
    if (z =? 2)%Z then mean Q (@sq_diff K) - cnorm2 (csub b1 b2) else mean Q (sqdiff_about b1 b2).
  Lemma normalize_cross_diff denoise z w :
    z = 2%Z \/ (z = 6%Z /\ has_flag nm NORM_SUBTRACTED = true) ->
    normalize real_ops denoise cross_diff_data bg variance (Some (NInt z)) "diff" false w =
    Ok (at_delays N P (diff_value z)).
  Proof.
    intros HZ.
    rewrite (@normalize_unweighted _ real_ops denoise cross_diff_data b1 b2); auto.
    2: { unfold cross_diff_data, _default_norm_from_data. rewrite norm_from_cdiff_data_spec.
         destruct HZ as [->|[-> E]]; [reflexivity|]. rewrite E. reflexivity. }
    2: { destruct HZ as [->|[-> E]]; discriminate. }
    2: { discriminate. }
    unfold cross_diff_data, normalize_formula, at_delays, diff_value. rewrite (@len_fresh (fmon K)).
    destruct HZ as [->|[-> E]]; [|rewrite E]; cbn [Z.eqb Pos.eqb orb op_cdiff_1 op_cdiff_3 real_ops need bind];
      cbn [String.eqb Ascii.eqb Bool.eqb]; (erewrite cells_ok_map;
      [ reflexivity
      | cbn [forallb]; rewrite ?(@len_fresh (fmon K)), ?(@len_fresh (cmon K)), ?(@len_fresh natmon), ?Nat.eqb_refl; reflexivity
      | run_cell ]).
  Qed.
End Norm.
