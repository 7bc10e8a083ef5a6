(** normalize applied to the tuples of acorr. *)
From Verif Require Import Base Kernels PairSpec KernelProofs PairLemmas CoreModel CoreProofs CoreProofs3 NormModel NormSpec
  FftModel CorrModel CorrSpec CorrProofs CorrProofs2 NormProofs NormProofs2 NormApi.
From Coq Require Import String Field ZifyBool ZifyNat.
Open Scope string_scope.
Open Scope nat_scope.
Local Notation length := List.length.
Set Implicit Arguments.

Section Auto.
  Variable K : Fld.
  Notation C := (Cx K).
  Notation pair := (sample C * sample C)%type.
  Add Field Kfa : (flaw K).
  Local Infix "-" := (fsub K).
  Local Infix "+" := (fadd K).

  Lemma half_half (z : C) : cadd (ahalf (cgrp K) z) (ahalf (cgrp K) z) = z.
  Proof. etransitivity; [symmetry; exact (ahalf_add (cgrp K) z z)|exact (ahalf_double (cgrp K) z)]. Qed.
  Lemma halfsum_twice (Q : list pair) :
    cadd (Sum (cmon K) Q (@halfsum K)) (Sum (cmon K) Q (@halfsum K)) =
    cadd (Sum (cmon K) Q (@first K)) (Sum (cmon K) Q (@second K)).
  Proof.
    etransitivity; [symmetry; exact (@Sum_madd (cmon K) _ Q (@halfsum K) (@halfsum K))|].
    etransitivity; [|exact (@Sum_madd (cmon K) _ Q (@first K) (@second K))].
    apply Sum_ext. intros p _. apply half_half.
  Qed.
  Lemma corr_subtracted_half (d : K) n (b m m1 m2 : C) : cadd m m = cadd m1 m2 ->
    _normalize_corr_subtracted_real d n b b m m = _normalize_corr_subtracted_real d n b b m1 m2.
  Proof.
    intros H. unfold _normalize_corr_subtracted_real. f_equal. f_equal.
    assert (Hr : cre m + cre m = cre m1 + cre m2) by exact (f_equal (@cre K) H).
    assert (Hi : cim m + cim m = cim m1 + cim m2) by exact (f_equal (@cim K) H).
    transitivity (d - fmul K (cre b) (cre m + cre m) - fmul K (cim b) (cim m + cim m)); [ring|rewrite Hr, Hi; ring].
  Qed.
  Lemma struct_subtracted_half (d : K) n (b : C) v sq (m m1 m2 : C) :
    _normalize_struct_subtracted_real d n b b v sq m m = _normalize_struct_subtracted_real d n b b v sq m1 m2.
  Proof. unfold _normalize_struct_subtracted_real. f_equal. f_equal. ring. Qed.

  Variable P : nat -> list pair.
  Variable N : nat.
  Variable nm : Z.
  Variables (b : C) (bg : statarg C) (variance : statarg K) (v : K).
  Hypothesis HB : bg = SOne b \/ bg = STwo b b.

  Definition auto_value (z : Z) (Q : list pair) : K :=
    if (z =? 1)%Z then mean Q (@re_prod K) - cnorm2 b
    else if ((z =? 5) || (z =? 13))%Z then mean Q (fun p => cre (prod_about b b p))
    else if (z =? 9)%Z then mean Q (@re_prod K) - cnorm2 (cmean Q (@halfsum K))
    else v - half K (mean Q (@sq_diff K)).

  Lemma auto_supports V (d : list V) z : data_supports (has_flag nm NORM_STRUCTURED) (has_flag nm NORM_SUBTRACTED) z = true ->
    _default_norm_from_data (acorr_tuple d None None None N nm P) (Some z) = Ok z.
  Proof.
    intros H. unfold acorr_tuple, _default_norm_from_data. rewrite norm_from_ccorr_data_spec.
    replace (given (if has_flag nm NORM_STRUCTURED then _ else None)) with (has_flag nm NORM_STRUCTURED) by (destruct (has_flag nm NORM_STRUCTURED); reflexivity).
    replace (given (if has_flag nm NORM_SUBTRACTED then _ else None)) with (has_flag nm NORM_SUBTRACTED) by (destruct (has_flag nm NORM_SUBTRACTED); reflexivity).
    rewrite H. reflexivity.
  Qed.

  Ltac split_norm z H := 
    let H' := fresh in
    assert (H' : In z supported_norms) by
      (apply in_list_In; unfold data_supports in H; apply andb_prop in H; destruct H as [H _]; apply andb_prop in H; apply H);
    unfold supported_norms in H'; cbn [In] in H';
    repeat (destruct H' as [<-|H']; [|]); [..|contradiction].

  Lemma sqdiff_same (Q : list pair) : mean Q (sqdiff_about b b) = mean Q (@sq_diff K).
  Proof.
    unfold mean. f_equal. apply Sum_ext. intros p _. unfold sqdiff_about, sq_diff, fst_val, snd_val. f_equal.
    destruct (fst (snd p)), (fst (fst p)), b. unfold csub. cbn. f_equal; match goal with |- @eq _ ?a ?b => change (@eq (fcar K) a b) end; ring.
  Qed.
  Lemma half_zero_norm (z : C) : half K (cnorm2 (csub z z)) = f0 K.
  Proof. destruct z. unfold half, cnorm2, csub, cre, cim. cbn [fst snd]. field. apply two_neq0. Qed.

  Lemma cim_Sum' (Q : list pair) g : cim (Sum (cmon K) Q g) = Sum (fmon K) Q (fun p => cim (g p)).
  Proof. induction Q as [|p Q IH]; [reflexivity|]. rewrite !Sum_cons. cbn [cmon fmon madd mcar]. rewrite <- IH. reflexivity. Qed.
  Lemma mean_cover (Q : list pair) g : Q <> [] -> cover (Sum (cmon K) Q g) (length Q) = Fin (cmean Q g).
  Proof.
    intros HQ. unfold cover, cmean, mean. destruct (length Q) eqn:E; [destruct Q; [congruence|discriminate]|].
    rewrite <- E. f_equal. f_equal.
    - f_equal. apply (@cre_Sum K).
    - f_equal. apply cim_Sum'.
  Qed.

  Lemma corr_comp_half (Q : list pair) : Q <> [] ->
    _normalize_corr_compensated_real (Sum (fmon K) Q (@re_prod K)) (length Q) (Sum (cmon K) Q (@halfsum K)) (Sum (cmon K) Q (@halfsum K)) =
    Fin (mean Q (@re_prod K) - cnorm2 (cmean Q (@halfsum K))).
  Proof.
    intros HQ. pose proof (@mean_cover Q (@halfsum K) HQ) as HM. unfold cover in HM. unfold _normalize_corr_compensated_real, over, mean.
    assert (HN : fnat K (length Q) <> f0 K) by (apply N_neq0; exact HQ).
    destruct (length Q) eqn:E; [destruct Q; [congruence|discriminate]|]. rewrite <- E in *.
    cbn [fv_bind]. apply (f_equal (fun x => match x with Fin a => a | NonFin => c0 K end)) in HM; cbv beta iota in HM. f_equal. rewrite <- HM. unfold cnorm2, cre, cim. cbn [fst snd].
    generalize (Sum (cmon K) Q (@halfsum K)). intros [a c]. cbn [fst snd mcar cmon].
    match goal with |- @eq _ ?a ?b => change (@eq (fcar K) a b) end. field. exact HN.
  Qed.
  Lemma struct_comp_half (Q : list pair) m1 m2 : Q <> [] ->
    _normalize_struct_compensated_real (Sum (fmon K) Q (@re_prod K)) (length Q) v (Sum (fmon K) Q (@squares K)) m1 m1 =
    _normalize_struct_subtracted_real (Sum (fmon K) Q (@re_prod K)) (length Q) b b v (Sum (fmon K) Q (@squares K)) m2 m2.
  Proof.
    intros HQ. unfold _normalize_struct_compensated_real, _normalize_struct_subtracted_real, over.
    assert (HN : fnat K (length Q) <> f0 K) by (apply N_neq0; exact HQ).
    destruct (length Q) eqn:E; [destruct Q; [congruence|discriminate]|]. cbn [fv_bind fv_map]. f_equal.
    unfold half. match goal with |- @eq _ ?a ?b => change (@eq (fcar K) a b) end. generalize dependent (fnat K (S n)). intros c Hc. pose proof (@two_neq0 K) as H2. field. repeat split; first [exact Hc|exact H2].
  Qed.

  Lemma normalize_auto_real denoise z w :
    data_supports (has_flag nm NORM_STRUCTURED) (has_flag nm NORM_SUBTRACTED) z = true -> unweighted z = true -> variance_ok K variance v z ->
    normalize real_ops denoise (auto_real_data P N nm) bg variance (Some (NInt z)) "corr" false w =
    Ok (at_delays N P (auto_value z)).
  Proof.
    intros HS HU HV.
    rewrite (@normalize_unweighted K K real_ops denoise (auto_real_data P N nm) b b); auto.
    2: { apply auto_supports; exact HS. }
    2: { intros E. unfold unweighted in HU. rewrite E in HU. discriminate. }
    2: { destruct HB; auto. }
    2: { discriminate. }
    unfold auto_real_data, acorr_tuple, normalize_formula, at_delays, auto_value.
    pose proof HS as HS'; unfold data_supports in HS'; apply andb_prop in HS'; destruct HS' as [HS1 HS3];
    apply andb_prop in HS1; destruct HS1 as [_ HS2];
    rewrite ?(@len_fresh (fmon K)), ?(@len_fresh (cmon K)).
    split_norm z HS; try discriminate HU; cbn [Z.eqb Pos.eqb orb];
      cbn [Z.testbit Pos.testbit Pos.pred_N negb orb andb N.testbit Pos.pred_double] in HS2, HS3;
      try (rewrite (HV eq_refl); cbn [bind]);
      try (destruct (has_flag nm NORM_STRUCTURED); [|discriminate HS2]);
      try (destruct (has_flag nm NORM_SUBTRACTED); [|discriminate HS3]);
      cbn [need bind start];
      cbn [String.eqb Ascii.eqb Bool.eqb];
      (erewrite (@cells_ok_map K P N);
      [ reflexivity
      | cbn [forallb]; rewrite ?(@len_fresh (fmon K)), ?(@len_fresh (cmon K)), ?(@len_fresh natmon), ?Nat.eqb_refl; reflexivity
      | ]);
      intros i Hi; rewrite ?(@nth_fresh (fmon K)), ?(@nth_fresh (cmon K)), ?(@nth_fresh natmon) by exact Hi;
      (destruct (P i) eqn:E; [reflexivity|]);
      rewrite <- E; assert (HP : P i <> []) by (rewrite E; discriminate).
    all: cbn [op_corr_baseline op_struct_baseline op_corr_subtracted op_struct_subtracted op_corr_compensated op_struct_compensated real_ops].
    - etransitivity; [exact (@corr_baseline_real K (P i) HP b b)|]. f_equal. f_equal.
      destruct b; unfold cnorm2, cmul, conj, cre, cim; cbn [fst snd]; match goal with |- @eq _ ?a ?b => change (@eq (fcar K) a b) end; ring.
    - etransitivity; [exact (@struct_baseline_real K (P i) HP b b v)|]. f_equal.
      match goal with |- context [half K (cnorm2 (csub b b))] => rewrite half_zero_norm end. 
      match goal with |- @eq _ ?a ?b => change (@eq (fcar K) a b) end; ring.
    - etransitivity; [exact (@corr_subtracted_half _ _ b _ _ _ (halfsum_twice (P i)))|]. exact (@corr_subtracted_real K (P i) HP b b).
    - etransitivity; [exact (@struct_subtracted_half _ _ b v _ _ (Sum (cmon K) (P i) (@first K)) (Sum (cmon K) (P i) (@second K)))|].
      etransitivity; [exact (@struct_subtracted_real K (P i) HP b b v)|]. rewrite sqdiff_same. reflexivity.
    - exact (corr_comp_half HP).
    - etransitivity; [exact (@struct_comp_half (P i) _ (c0 K) HP)|].
      etransitivity; [exact (@struct_subtracted_half _ _ b v _ _ (Sum (cmon K) (P i) (@first K)) (Sum (cmon K) (P i) (@second K)))|].
      etransitivity; [exact (@struct_subtracted_real K (P i) HP b b v)|]. rewrite sqdiff_same. reflexivity.
    - etransitivity; [exact (@corr_subtracted_half _ _ b _ _ _ (halfsum_twice (P i)))|]. exact (@corr_subtracted_real K (P i) HP b b).
    - etransitivity; [exact (@struct_subtracted_half _ _ b v _ _ (Sum (cmon K) (P i) (@first K)) (Sum (cmon K) (P i) (@second K)))|].
      etransitivity; [exact (@struct_subtracted_real K (P i) HP b b v)|]. rewrite sqdiff_same. reflexivity.
  Qed.
  Lemma normalize_auto_diff denoise w :
    normalize real_ops denoise (auto_diff_data P N) bg variance (Some (NInt 2%Z)) "diff" false w =
    Ok (at_delays N P (fun Q => mean Q (@sq_diff K))).
  Proof.
    rewrite (@normalize_unweighted K K real_ops denoise (auto_diff_data P N) b b); auto; try discriminate.
    2: { destruct HB; auto. }
    unfold auto_diff_data, normalize_formula, at_delays. rewrite (@len_fresh (fmon K)).
    cbn [Z.eqb Pos.eqb orb op_cdiff_1 op_cdiff_3 real_ops need bind];
      cbn [String.eqb Ascii.eqb Bool.eqb]; (erewrite (@cells_ok_map K P N);
      [ reflexivity
      | cbn [forallb]; rewrite ?(@len_fresh (fmon K)), ?(@len_fresh (cmon K)), ?(@len_fresh natmon), ?Nat.eqb_refl; reflexivity
      | ]).
    intros i Hi; rewrite ?(@nth_fresh (fmon K)), ?(@nth_fresh (cmon K)), ?(@nth_fresh natmon) by exact Hi.
    destruct (P i) eqn:E; [reflexivity|]. rewrite <- E. assert (HP : P i <> []) by (rewrite E; discriminate).
    etransitivity; [exact (@cdiff_1 K (P i) HP b b)|]. f_equal.
    assert (Z0 : cnorm2 (csub b b) = f0 K) by (destruct b; unfold cnorm2, csub, cre, cim; cbn [fst snd]; ring).
    rewrite Z0. match goal with |- @eq _ ?a ?b => change (@eq (fcar K) a b) end; ring.
  Qed.
End Auto.
