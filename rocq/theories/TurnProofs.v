(** Signals multiplied by complex numbers: the normalized values. *)
From Verif Require Import Base Kernels PairSpec KernelProofs PairLemmas CoreModel CoreProofs CoreProofs3 NormModel NormSpec
  FftModel CorrModel CorrSpec CorrProofs CorrProofs2 NormProofs NormProofs2 NormApi NormAuto NormMap NormApi2 NormMode NormMode2 NormMode3 NormApi3.
From Coq Require Import String Field ZifyBool ZifyNat.
Open Scope string_scope.
Open Scope nat_scope.
Local Notation length := List.length.
Set Implicit Arguments.

Section Turn.
  Variable K : Fld.
  Notation C := (Cx K).
  Notation pair := (sample C * sample C)%type.
  Variable W : nat -> C.
  Add Field Kft : (flaw K).
  Local Notation "0" := (f0 K).
  Local Notation "1" := (f1 K).
  Local Infix "+" := (fadd K).
  Local Infix "*" := (fmul K).
  Local Infix "-" := (fsub K).
  Local Infix "/" := (fdiv K).
  Local Notation "2" := (1 + 1).
  Notation S_ P g := (Sum (fmon K) P g).
  Notation D P := (S_ P (@re_prod K)).
  Notation Di P := (S_ P (fun p => cim (cx_prod p))).
  Notation xr P := (S_ P (fun p => cre (fst_val p))).
  Notation xi P := (S_ P (fun p => cim (fst_val p))).
  Notation yr P := (S_ P (fun p => cre (snd_val p))).
  Notation yi P := (S_ P (fun p => cim (snd_val p))).
  Notation Q_ P := (S_ P (@CorrProofs.squares K)).
  Ltac rg := match goal with |- @eq _ ?a ?b => change (@eq (fcar K) a b) end; ring.
  Ltac fd := match goal with |- @eq _ ?a ?b => change (@eq (fcar K) a b) end; field; auto.
  Ltac split_norm z H :=
    let H' := fresh in
    assert (H' : In z supported_norms) by (apply in_list_In; exact H);
    unfold supported_norms in H'; cbn [In] in H';
    repeat (destruct H' as [<-|H']; [|]); [..|contradiction].

  Section Two.
    Variables u1 u2 : C.
    Let h := map_pair (on_val (cmul u1)) (on_val (cmul u2)).
    Let wr := cre u1 * cre u2 + cim u1 * cim u2.
    Let wi := cre u1 * cim u2 - cim u1 * cre u2.
    Ltac expand := unfold h, wr, wi, map_pair, on_val, fst_val, snd_val, re_prod, cx_prod, CorrProofs.squares, CorrProofs.first, CorrProofs.second, cnorm2, csub, cmul, conj, cre, cim; cbn [fst snd].
    Ltac by_ind P := induction P as [|p P IH]; [cbn [map]; rewrite ?Sum_nil'; rg|]; cbn [map]; rewrite ?Sum_cons'; rewrite IH; expand; rg.
    Lemma tu_xr P : xr (map h P) = cre u1 * xr P - cim u1 * xi P. Proof. by_ind P. Qed.
    Lemma tu_xi P : xi (map h P) = cre u1 * xi P + cim u1 * xr P. Proof. by_ind P. Qed.
    Lemma tu_yr P : yr (map h P) = cre u2 * yr P - cim u2 * yi P. Proof. by_ind P. Qed.
    Lemma tu_yi P : yi (map h P) = cre u2 * yi P + cim u2 * yr P. Proof. by_ind P. Qed.
    Lemma tu_D P : D (map h P) = wr * D P - wi * Di P. Proof. by_ind P. Qed.
    Lemma tu_Di P : Di (map h P) = wr * Di P + wi * D P. Proof. by_ind P. Qed.
    Ltac norm_algebra P :=
      unfold cmean, mean; change (fun p : pair => cre (cx_prod p)) with (@re_prod K);
      rewrite ?prod_about_re, ?prod_about_im;
      rewrite ?map_length, ?tu_xr, ?tu_xi, ?tu_yr, ?tu_yi, ?tu_D, ?tu_Di; unfold wr, wi;
      generalize (D P) (Di P) (xr P) (xi P) (yr P) (yi P); intros;
      unfold csub, cadd, cmul, conj, c0; cbn [cre cim fst snd]; unfold cre, cim; cbn [fst snd].
    (** without the squares: every value is multiplied by [conj u1 * u2] *)
    Lemma complex_value_turn b1 b2 v v' z Q : Q <> [] -> In z [1; 5; 9; 13]%Z ->
      complex_value (cmul u1 b1) (cmul u2 b2) v z (map h Q) = cmul (cmul (conj u1) u2) (complex_value b1 b2 v' z Q).
    Proof.
      intros HQ HZ. unfold complex_value. pose proof (N_neq0 HQ) as HN. pose proof (@two_neq0 K) as H2.
      cbn in HZ. decompose [or] HZ; try contradiction; subst z; cbn [Z.eqb Pos.eqb orb]; norm_algebra Q; apply f_equal2; fd.
    Qed.
  End Two.
  Section One.
    Variable u : C.
    Let h := map_pair (on_val (cmul u)) (on_val (cmul u)).
    Let g := cnorm2 u.
    Ltac expand := unfold h, g, map_pair, on_val, fst_val, snd_val, re_prod, cx_prod, halfsum, CorrProofs.squares, CorrProofs.first, CorrProofs.second, cnorm2, csub, cadd, cmul, conj, cre, cim; cbn [fst snd].
    Lemma tu_Q P : Q_ (map h P) = g * Q_ P.
    Proof. induction P as [|p P IH]; [cbn [map]; rewrite ?Sum_nil'; rg|]; cbn [map]; rewrite ?Sum_cons'; rewrite IH; expand; rg. Qed.
    Ltac norm_algebra P :=
      unfold cmean, mean; change (fun p : pair => cre (cx_prod p)) with (@re_prod K);
      rewrite ?sq_diff_sum, ?sqdiff_i_about_sum, ?sqdiff_about_sum, ?prod_about_re, ?prod_about_im;
      unfold h; rewrite ?map_length, ?tu_xr, ?tu_xi, ?tu_yr, ?tu_yi, ?tu_D, ?tu_Di, ?tu_Q; unfold g;
      generalize (D P) (Di P) (xr P) (xi P) (yr P) (yi P) (Q_ P); intros;
      unfold cscal, times_i, half, cnorm2, csub, cadd, cmul, conj, c0; cbn [cre cim fst snd]; unfold cre, cim; cbn [fst snd].
    Lemma real_value_turn b1 b2 v z Q : Q <> [] -> in_list z supported_norms = true -> unweighted z = true ->
      real_value (cmul u b1) (cmul u b2) (g * v) z (map h Q) = g * real_value b1 b2 v z Q.
    Proof.
      intros HQ HS HU. unfold real_value. pose proof (N_neq0 HQ) as HN. pose proof (@two_neq0 K) as H2.
      split_norm z HS; try discriminate HU; cbn [Z.eqb Pos.eqb orb]; norm_algebra Q; fd.
    Qed.
    Lemma complex_value_turn_one b1 b2 v z Q : Q <> [] -> in_list z supported_norms = true -> unweighted z = true ->
      complex_value (cmul u b1) (cmul u b2) (g * v) z (map h Q) = cscal g (complex_value b1 b2 v z Q).
    Proof.
      intros HQ HS HU. unfold complex_value. pose proof (N_neq0 HQ) as HN. pose proof (@two_neq0 K) as H2.
      split_norm z HS; try discriminate HU; cbn [Z.eqb Pos.eqb orb]; norm_algebra Q; apply f_equal2; fd.
    Qed.
    Lemma diff_value_turn b1 b2 z Q : Q <> [] -> diff_value (cmul u b1) (cmul u b2) z (map h Q) = g * diff_value b1 b2 z Q.
    Proof.
      intros HQ. unfold diff_value. pose proof (N_neq0 HQ) as HN. pose proof (@two_neq0 K) as H2. destruct (z =? 2)%Z; norm_algebra Q; fd.
    Qed.
    Lemma mean_scale Q Q' F F' : Q' = map h Q -> (forall p, F' (h p) = g * F p) -> Q <> [] -> mean Q' F' = g * mean Q F.
    Proof.
      intros -> E HQ. rewrite mean_map. unfold mean. pose proof (N_neq0 HQ) as HN.
      assert (X : S_ Q (fun p => F' (h p)) = g * S_ Q F). { clear HQ HN. induction Q as [|p Q IH]; [rewrite !Sum_nil'; rg|]. rewrite !Sum_cons', IH, E. rg. }
      rewrite X. fd.
    Qed.
    Lemma auto_value_turn b v z Q : Q <> [] -> auto_value (cmul u b) (g * v) z (map h Q) = g * auto_value b v z Q.
    Proof.
      intros HQ. unfold auto_value. pose proof (N_neq0 HQ) as HN. pose proof (@two_neq0 K) as H2.
      assert (E1 : mean (map h Q) (@re_prod K) = g * mean Q (@re_prod K)) by (eapply mean_scale; [reflexivity| |exact HQ]; intros p; expand; rg).
      assert (E2 : mean (map h Q) (@sq_diff K) = g * mean Q (@sq_diff K)) by (eapply mean_scale; [reflexivity| |exact HQ]; intros p; unfold sq_diff; expand; rg).
      assert (E3 : mean (map h Q) (fun p => cre (prod_about (cmul u b) (cmul u b) p)) = g * mean Q (fun p => cre (prod_about b b p))) by (eapply mean_scale; [reflexivity| |exact HQ]; intros p; unfold prod_about; expand; rg).
      destruct (z =? 1)%Z; [rewrite E1; unfold g, cnorm2, cmul, cre, cim; cbn [fst snd]; rg|]. destruct ((z =? 5) || (z =? 13))%Z; [exact E3|].
      destruct (z =? 9)%Z; [|rewrite E2; unfold half; fd]. rewrite E1.
      assert (E4 : cmean (map h Q) (@halfsum K) = cmul u (cmean Q (@halfsum K))).
      { unfold cmean. rewrite !mean_map. unfold mean, cmul. cbn [cre cim fst snd].
        assert (X : S_ Q (fun p => cre (halfsum (h p))) = cre u * S_ Q (fun p => cre (halfsum p)) - cim u * S_ Q (fun p => cim (halfsum p)) /\
                    S_ Q (fun p => cim (halfsum (h p))) = cre u * S_ Q (fun p => cim (halfsum p)) + cim u * S_ Q (fun p => cre (halfsum p))).
        { clear HQ HN E1 E2 E3. induction Q as [|p Q IH]; [split; rewrite !Sum_nil'; rg|]. destruct IH as (I1 & I2). split; rewrite !Sum_cons'; [rewrite I1|rewrite I2]; unfold halfsum; cbn [ahalf cgrp]; expand; unfold fhalf, ftwo, cre, cim; cbn [fst snd]; fd. }
        destruct X as (-> & ->). apply f_equal2; fd. }
      rewrite E4. generalize (cmean Q (@halfsum K)). intros c. unfold g, cnorm2, cmul, cre, cim; cbn [fst snd]; rg.
    Qed.
  End One.
End Turn.
