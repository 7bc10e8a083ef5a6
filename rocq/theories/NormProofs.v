(** The normalization formulas as averages over pairs. *)
From Verif Require Import Base Kernels PairSpec KernelProofs PairLemmas CoreModel CoreProofs3 NormModel NormSpec CorrModel CorrProofs CorrProofs2.
From Coq Require Import String Field ZifyBool ZifyNat.
Open Scope string_scope.
Open Scope nat_scope.
Local Notation length := List.length.
Set Implicit Arguments.

Section Alg.
  Variable K : Fld.
  Notation C := (Cx K).
  Notation pair := (sample C * sample C)%type.
  Add Field Kf : (flaw K).
  Local Notation "0" := (f0 K).
  Local Notation "1" := (f1 K).
  Local Infix "+" := (fadd K).
  Local Infix "*" := (fmul K).
  Local Infix "-" := (fsub K).
  Local Infix "/" := (fdiv K).
  Local Notation "2" := (1 + 1).
  Notation S_ P g := (Sum (fmon K) P g).

  Lemma Sum_nil' g : S_ ([] : list pair) g = 0.
  Proof. reflexivity. Qed.
  Lemma Sum_cons' (p : pair) P g : S_ (p :: P) g = g p + S_ P g.
  Proof. reflexivity. Qed.
  Lemma fnat_len (p : pair) P : fnat K (length (p :: P)) = 1 + fnat K (length P).
  Proof. reflexivity. Qed.
  Lemma two_neq0 : 2 <> 0.
  Proof.
    pose proof (@fnat_neq0 K (S (S O)) ltac:(lia)) as H. rewrite !fnat_S in H. intros E. apply H.
    transitivity 2; [change (fnat K O) with 0; ring|exact E].
  Qed.

  Ltac expand := unfold prod_about, sqdiff_about, sqdiff_i_about, times_i, fst_val, snd_val, re_prod, cx_prod, sq_diff,
    CorrProofs.squares, CorrProofs.first, CorrProofs.second, cnorm2, csub, cmul, conj, cre, cim;
    cbn [fst snd].
  Ltac rg := match goal with |- @eq _ ?a ?b => change (@eq (fcar K) a b) end; ring.
  Ltac fd := match goal with |- @eq _ ?a ?b => change (@eq (fcar K) a b) end; field; auto.
  Ltac by_ind P := induction P as [|p P IH]; [change (fnat K (length (@nil pair))) with 0; rewrite ?Sum_nil'; rg|];
    rewrite ?Sum_cons', ?fnat_len; rewrite IH; expand; rg.

  Notation D P := (S_ P (@re_prod K)).
  Notation Di P := (S_ P (fun p => cim (cx_prod p))).
  Notation xr P := (S_ P (fun p => cre (fst_val p))).
  Notation xi P := (S_ P (fun p => cim (fst_val p))).
  Notation yr P := (S_ P (fun p => cre (snd_val p))).
  Notation yi P := (S_ P (fun p => cim (snd_val p))).
  Notation Q P := (S_ P (@CorrProofs.squares K)).
  Notation N P := (fnat K (length P)).

  Lemma prod_about_re b1 b2 P : S_ P (fun p => cre (prod_about b1 b2 p)) =
    D P - (cre b1 * yr P + cim b1 * yi P) - (cre b2 * xr P + cim b2 * xi P) + N P * (cre b1 * cre b2 + cim b1 * cim b2).
  Proof. by_ind P. Qed.
  Lemma prod_about_im b1 b2 P : S_ P (fun p => cim (prod_about b1 b2 p)) =
    Di P - (cre b1 * yi P - cim b1 * yr P) - (xr P * cim b2 - xi P * cre b2) + N P * (cre b1 * cim b2 - cim b1 * cre b2).
  Proof. by_ind P. Qed.
  Lemma sqdiff_about_sum b1 b2 P : S_ P (sqdiff_about b1 b2) =
    Q P - 2 * D P - 2 * ((xr P - yr P) * (cre b1 - cre b2) + (xi P - yi P) * (cim b1 - cim b2))
    + N P * ((cre b1 - cre b2) * (cre b1 - cre b2) + (cim b1 - cim b2) * (cim b1 - cim b2)).
  Proof. by_ind P. Qed.
  Lemma sqdiff_i_about_sum b1 b2 P : S_ P (sqdiff_i_about b1 b2) =
    Q P - 2 * Di P - 2 * ((xi P + yr P) * (cim b1 + cre b2) + (xr P - yi P) * (cre b1 - cim b2))
    + N P * ((cim b1 + cre b2) * (cim b1 + cre b2) + (cre b1 - cim b2) * (cre b1 - cim b2)).
  Proof. by_ind P. Qed.
  Lemma sq_diff_sum P : S_ P (@sq_diff K) = Q P - 2 * D P.
  Proof. by_ind P. Qed.

  Lemma cre_first P : cre (Sum (cmon K) P (@CorrProofs.first K)) = xr P.
  Proof. induction P as [|p P IH]; [reflexivity|]. rewrite Sum_cons, Sum_cons', <- IH. reflexivity. Qed.
  Lemma cim_first P : cim (Sum (cmon K) P (@CorrProofs.first K)) = xi P.
  Proof. induction P as [|p P IH]; [reflexivity|]. rewrite Sum_cons, Sum_cons', <- IH. reflexivity. Qed.
  Lemma cre_second P : cre (Sum (cmon K) P (@CorrProofs.second K)) = yr P.
  Proof. induction P as [|p P IH]; [reflexivity|]. rewrite Sum_cons, Sum_cons', <- IH. reflexivity. Qed.
  Lemma cim_second P : cim (Sum (cmon K) P (@CorrProofs.second K)) = yi P.
  Proof. induction P as [|p P IH]; [reflexivity|]. rewrite Sum_cons, Sum_cons', <- IH. reflexivity. Qed.
  Lemma cre_prod P : cre (Sum (cmon K) P (@cx_prod K)) = D P.
  Proof. induction P as [|p P IH]; [reflexivity|]. rewrite Sum_cons, Sum_cons', <- IH. reflexivity. Qed.
  Lemma cim_prod P : cim (Sum (cmon K) P (@cx_prod K)) = Di P.
  Proof. induction P as [|p P IH]; [reflexivity|]. rewrite Sum_cons, Sum_cons', <- IH. reflexivity. Qed.
  Lemma re_prod_sum P : S_ P (fun p => cre (cx_prod p)) = D P.
  Proof. reflexivity. Qed.

  Lemma over_cases (P : list pair) x : P <> [] -> over K x (length P) = Fin (x / N P).
  Proof. destruct P; [congruence|reflexivity]. Qed.
  Lemma cover_cases (P : list pair) z : P <> [] -> cover z (length P) = Fin (cre z / N P, cim z / N P).
  Proof. destruct P; [congruence|reflexivity]. Qed.
  Lemma N_neq0 (P : list pair) : P <> [] -> N P <> 0.
  Proof. intros H. apply fnat_neq0. destruct P; [congruence|cbn; lia]. Qed.

  Ltac fin P HP := pose proof (N_neq0 HP) as HN; pose proof two_neq0 as H2;
    repeat (rewrite ?(over_cases _ HP), ?(cover_cases _ HP); cbn [fv_map fv_bind]);
    apply (f_equal (@Fin _)).
  Ltac crunch := unfold csub, cadd, cmul, conj; unfold cre at 1 2; cbn [cre cim fst snd].

  Section Real.
    Variable P : list pair.
    Hypothesis HP : P <> [].
    Let m1 := Sum (cmon K) P (@CorrProofs.first K).
    Let m2 := Sum (cmon K) P (@CorrProofs.second K).
    Variables (b1 b2 : C) (var : K).

    Lemma corr_baseline_real : _normalize_corr_baseline_real (D P) (length P) b1 b2 =
      Fin (mean P (@re_prod K) - cre (cmul (conj b1) b2)).
    Proof. unfold _normalize_corr_baseline_real. fin P HP. unfold mean. unfold conj, cmul; cbn [cre cim fst snd]. rg. Qed.
    Lemma struct_baseline_real : _normalize_struct_baseline_real (D P) (length P) b1 b2 var (Q P) =
      Fin (var - half K (mean P (@sq_diff K)) + half K (cnorm2 (csub b1 b2))).
    Proof.
      unfold _normalize_struct_baseline_real. fin P HP. unfold mean, half. rewrite sq_diff_sum.
      unfold cnorm2, csub; cbn [cre cim fst snd]. fd.
    Qed.
    Lemma corr_subtracted_real : _normalize_corr_subtracted_real (D P) (length P) b1 b2 m1 m2 =
      Fin (mean P (fun p => cre (prod_about b1 b2 p))).
    Proof.
      unfold _normalize_corr_subtracted_real, m1, m2. rewrite cre_first, cim_first, cre_second, cim_second.
      fin P HP. unfold mean. rewrite prod_about_re. fd.
    Qed.
    Lemma struct_subtracted_real : _normalize_struct_subtracted_real (D P) (length P) b1 b2 var (Q P) m1 m2 =
      Fin (var - half K (mean P (sqdiff_about b1 b2))).
    Proof.
      unfold _normalize_struct_subtracted_real, m1, m2. rewrite cre_first, cim_first, cre_second, cim_second.
      fin P HP. unfold mean, half. rewrite sqdiff_about_sum. fd.
    Qed.
    Lemma corr_compensated_real : _normalize_corr_compensated_real (D P) (length P) m1 m2 =
      Fin (mean P (@re_prod K) - cre (cmul (conj (cmean P (@fst_val K))) (cmean P (@snd_val K)))).
    Proof.
      unfold _normalize_corr_compensated_real, m1, m2. rewrite cre_first, cim_first, cre_second, cim_second.
      fin P HP. unfold cmean, mean, cmul, conj; cbn [cre cim fst snd]. fd.
    Qed.
    Lemma struct_compensated_real : _normalize_struct_compensated_real (D P) (length P) var (Q P) m1 m2 =
      Fin (var - half K (mean P (@sq_diff K) - cnorm2 (csub (cmean P (@fst_val K)) (cmean P (@snd_val K))))).
    Proof.
      unfold _normalize_struct_compensated_real, m1, m2. rewrite cre_first, cim_first, cre_second, cim_second.
      fin P HP. unfold cmean, mean, half, cnorm2, csub; cbn [cre cim fst snd]. rewrite sq_diff_sum. fd.
    Qed.

    (** complex data *)
    Let Dc := Sum (cmon K) P (@cx_prod K).
    Lemma Dc_eq : Dc = (D P, Di P).
    Proof. rewrite <- cre_prod, <- cim_prod. apply surjective_pairing. Qed.
    Lemma m1_eq : m1 = (xr P, xi P).
    Proof. rewrite <- cre_first, <- cim_first. apply surjective_pairing. Qed.
    Lemma m2_eq : m2 = (yr P, yi P).
    Proof. rewrite <- cre_second, <- cim_second. apply surjective_pairing. Qed.
    Ltac finish := rewrite ?Dc_eq, ?m1_eq, ?m2_eq; unfold cmean, mean; rewrite ?sq_diff_sum, ?sqdiff_i_about_sum, ?sqdiff_about_sum, ?prod_about_re, ?prod_about_im;
      change (fun p : pair => cre (cx_prod p)) with (@re_prod K);
      generalize (D P) (Di P) (xr P) (xi P) (yr P) (yi P) (Q P); intros;
      unfold times_i, half, cnorm2, csub, cadd, cmul, conj, c0; cbn [cre cim fst snd]; apply f_equal2; fd.
    Lemma corr_baseline_complex : _normalize_corr_baseline_complex Dc (length P) b1 b2 =
      Fin (csub (cmean P (@cx_prod K)) (cmul (conj b1) b2)).
    Proof. unfold _normalize_corr_baseline_complex. fin P HP. finish. Qed.
    Lemma struct_baseline_complex : _normalize_struct_baseline_complex Dc (length P) b1 b2 var (Q P) =
      Fin (var - half K (mean P (@sq_diff K)) + half K (cnorm2 (csub b1 b2)),
           var - half K (mean P (sqdiff_i_about (c0 K) (c0 K))) + half K (cnorm2 (csub b2 (times_i b1)))).
    Proof. unfold _normalize_struct_baseline_complex. fin P HP. finish. Qed.
    Lemma corr_subtracted_complex : _normalize_corr_subtracted_complex Dc (length P) b1 b2 m1 m2 =
      Fin (cmean P (prod_about b1 b2)).
    Proof. unfold _normalize_corr_subtracted_complex. fin P HP. finish. Qed.
    Lemma struct_subtracted_complex : _normalize_struct_subtracted_complex Dc (length P) b1 b2 var (Q P) m1 m2 =
      Fin (var - half K (mean P (sqdiff_about b1 b2)), var - half K (mean P (sqdiff_i_about b1 b2))).
    Proof. unfold _normalize_struct_subtracted_complex. fin P HP. finish. Qed.
    Lemma corr_compensated_complex : _normalize_corr_compensated_complex Dc (length P) m1 m2 =
      Fin (csub (cmean P (@cx_prod K)) (cmul (conj (cmean P (@fst_val K))) (cmean P (@snd_val K)))).
    Proof. unfold _normalize_corr_compensated_complex. fin P HP. finish. Qed.
    Lemma struct_compensated_complex : _normalize_struct_compensated_complex Dc (length P) var (Q P) m1 m2 =
      Fin (var - half K (mean P (@sq_diff K) - cnorm2 (csub (cmean P (@fst_val K)) (cmean P (@snd_val K)))),
           var - half K (mean P (sqdiff_i_about (c0 K) (c0 K)) -
                         cnorm2 (csub (cmean P (@snd_val K)) (times_i (cmean P (@fst_val K)))))).
    Proof. unfold _normalize_struct_compensated_complex. fin P HP. finish. Qed.

    (** difference data *)
    Lemma cdiff_1 : _normalize_cdiff_1 (S_ P (@sq_diff K)) (length P) (csub b2 b1) =
      Fin (mean P (@sq_diff K) - cnorm2 (csub b1 b2)).
    Proof. unfold _normalize_cdiff_1. fin P HP. unfold mean, cnorm2, csub; cbn [cre cim fst snd]. rg. Qed.
    Lemma cdiff_3 : _normalize_cdiff_3 (S_ P (@sq_diff K)) (length P) (csub b2 b1) m1 m2 =
      Fin (mean P (sqdiff_about b1 b2)).
    Proof.
      unfold _normalize_cdiff_3, m1, m2. fin P HP. unfold csub; cbn [cre cim fst snd].
      rewrite cre_first, cim_first, cre_second, cim_second.
      unfold mean. rewrite sqdiff_about_sum, sq_diff_sum. fd.
    Qed.
  End Real.
End Alg.
