(** Signals multiplied by a number: ccorr and acorr. *)
From Verif Require Import Base Kernels PairSpec KernelProofs PairLemmas CoreModel CoreProofs CoreProofs3 NormModel NormSpec
  FftModel CorrModel CorrSpec CorrProofs CorrProofs2 NormProofs NormProofs2 NormApi NormAuto NormMap NormApi2 NormMode NormMode2 NormMode3 NormApi3 TurnProofs TurnData TurnApi GainData.
From Coq Require Import String Field ZifyBool ZifyNat.
Open Scope string_scope.
Open Scope nat_scope.
Local Notation length := List.length.
Set Implicit Arguments.

Section GainApi.
  Variable K : Fld.
  Notation C := (Cx K).
  Notation pair := (sample C * sample C)%type.
  Variable u : C.
  Notation m := (cnorm2 u).
  Add Field GAfield : (flaw K).
  Notation h := (map_pair (on_val (cmul u)) (on_val (cmul u))).
  Ltac ex := unfold map_pair, on_val, re_prod, cx_prod, sq_diff, CorrProofs.squares, CorrProofs.first, CorrProofs.second, cnorm2, cadd, csub, cmul, cscal, conj, cre, cim; cbn [fst snd].
  Ltac rg := match goal with |- @eq _ ?a ?b => change (@eq (fcar K) a b) end; ring.

  Lemma g_re p : re_prod (h p) = fmul K m (re_prod p).
  Proof. ex. rg. Qed.
  Lemma g_cx p : cx_prod (h p) = cscal m (cx_prod p).
  Proof. ex. f_equal; rg. Qed.
  Lemma g_ordered p : cx_prod_ordered (h p) = cscal m (cx_prod_ordered p).
  Proof.
    unfold cx_prod_ordered. change (snd (fst (h p))) with (snd (fst p)). change (snd (snd (h p))) with (snd (snd p)). rewrite g_cx. destruct (_ <=? _)%Z; [reflexivity|]. ex. f_equal; rg.
  Qed.
  Lemma g_sq p : sq_diff (h p) = fmul K m (sq_diff p).
  Proof. ex. rg. Qed.
  Lemma g_squares p : CorrProofs.squares (h p) = fmul K m (CorrProofs.squares p).
  Proof. ex. rg. Qed.
  (** Sums of cells multiplied by a factor *)
  Record hom (M : CMon) (s : M -> M) : Prop := { hom0 : s (m0 M) = m0 M; hom_add : forall a b, s (madd M a b) = madd M (s a) (s b) }.
  Lemma hom_re : hom (fmon K) (fmul K m).
  Proof. split; intros; cbn; rg. Qed.
  Lemma hom_cx : hom (cmon K) (cscal m).
  Proof. split; intros; cbn; unfold c0, cadd; ex; f_equal; rg. Qed.
  Lemma hom_sum (M : CMon) s (Hs : hom M s) A (l : list A) g : Sum M l (fun x => s (g x)) = s (Sum M l g).
  Proof. induction l as [|x l IH]; [symmetry; apply (hom0 Hs)|]. rewrite !Sum_cons, IH. symmetry. apply (hom_add Hs). Qed.
  Lemma hom_cells (M : CMon) s (Hs : hom M s) N (P P' : nat -> list pair) g : (forall i, P' i = map h (P i)) -> (forall p, g (h p) = s (g p)) ->
    plus_cells M (repeat (m0 M) N) (fun i => Sum M (P' i) g) = map s (plus_cells M (repeat (m0 M) N) (fun i => Sum M (P i) g)).
  Proof.
    intros HP Hg. unfold plus_cells. rewrite map_map. apply map_ext. intros k. rewrite (hom_add Hs), HP, Sum_map, <- (hom_sum Hs). f_equal; [|apply Sum_ext; intros; apply Hg].
    match goal with |- ?x = s ?x => assert (E : x = m0 M) by (destruct (nth_in_or_default k (repeat (m0 M) N) (m0 M)) as [X|X]; [apply repeat_spec in X; exact X|exact X]); rewrite E, (hom0 Hs); reflexivity end.
  Qed.

  Section Data.
    Variables (P P' : nat -> list pair) (N : nat) (nm : Z).
    Hypothesis HP : forall i, P' i = map h (P i).
    Lemma g_cnt : plus_cells natmon (repeat 0 N) (fun i => length (P' i)) = plus_cells natmon (repeat 0 N) (fun i => length (P i)).
    Proof using HP. apply cells_eq. intros i. rewrite HP. apply map_length. Qed.
    Lemma g_sqs : plus_cells (fmon K) (repeat (f0 K) N) (fun i => Sum (fmon K) (P' i) (@CorrProofs.squares K)) = map (fmul K m) (plus_cells (fmon K) (repeat (f0 K) N) (fun i => Sum (fmon K) (P i) (@CorrProofs.squares K))).
    Proof using HP. apply (hom_cells hom_re N P P' _ HP g_squares). Qed.
    Lemma hom_turn : hom (cmon K) (cmul u).
    Proof. split; intros; cbn; unfold c0, cadd; ex; f_equal; rg. Qed.
    Lemma g_sums g : (forall p, g (h p) = cmul u (g p)) -> plus_cells (cmon K) (repeat (c0 K) N) (fun i => Sum (cmon K) (P' i) g) = map (cmul u) (plus_cells (cmon K) (repeat (c0 K) N) (fun i => Sum (cmon K) (P i) g)).
    Proof using HP. intros H. apply (hom_cells hom_turn N P P' _ HP H). Qed.
    Ltac tuples := unfold corr_tuple, acorr_tuple, gain_data; cbn [start]; rewrite ?g_cnt, ?g_sqs, ?(g_sums (@CorrProofs.first K) (fun _ => eq_refl)), ?(g_sums (@CorrProofs.second K) (fun _ => eq_refl)), ?(g_sums (@halfsum K) (@h_half K u));
      destruct (has_flag nm NORM_STRUCTURED), (has_flag nm NORM_SUBTRACTED); reflexivity.
    Lemma real_gain : cross_real_data P' N nm = gain_data u (op_scal (@real_ops K) m) (cross_real_data P N nm).
    Proof using HP. unfold cross_real_data. assert (E : plus_cells (fmon K) (repeat (f0 K) N) (fun i => Sum (fmon K) (P' i) (@re_prod K)) = map (fmul K m) (plus_cells (fmon K) (repeat (f0 K) N) (fun i => Sum (fmon K) (P i) (@re_prod K)))) by exact (hom_cells hom_re N P P' _ HP g_re). rewrite E. tuples. Qed.
    Lemma complex_gain : cross_complex_data P' N nm = gain_data u (op_scal (@complex_ops K) m) (cross_complex_data P N nm).
    Proof using HP. unfold cross_complex_data. assert (E : plus_cells (cmon K) (repeat (c0 K) N) (fun i => Sum (cmon K) (P' i) (@cx_prod K)) = map (cscal m) (plus_cells (cmon K) (repeat (c0 K) N) (fun i => Sum (cmon K) (P i) (@cx_prod K)))) by exact (hom_cells hom_cx N P P' _ HP g_cx). rewrite E. tuples. Qed.
    Lemma diff_gain : cross_diff_data P' N nm = gain_data u (op_scal (@real_ops K) m) (cross_diff_data P N nm).
    Proof using HP. unfold cross_diff_data. assert (E : plus_cells (fmon K) (repeat (f0 K) N) (fun i => Sum (fmon K) (P' i) (@sq_diff K)) = map (fmul K m) (plus_cells (fmon K) (repeat (f0 K) N) (fun i => Sum (fmon K) (P i) (@sq_diff K)))) by exact (hom_cells hom_re N P P' _ HP g_sq). rewrite E. tuples. Qed.
    Lemma auto_gain : auto_real_data P' N nm = gain_data u (op_scal (@real_ops K) m) (auto_real_data P N nm).
    Proof using HP. unfold auto_real_data. assert (E : plus_cells (fmon K) (repeat (f0 K) N) (fun i => Sum (fmon K) (P' i) (@re_prod K)) = map (fmul K m) (plus_cells (fmon K) (repeat (f0 K) N) (fun i => Sum (fmon K) (P i) (@re_prod K)))) by exact (hom_cells hom_re N P P' _ HP g_re). rewrite E. tuples. Qed.
    Lemma auto_complex_gain : auto_complex_data P' N nm = gain_data u (op_scal (@complex_ops K) m) (auto_complex_data P N nm).
    Proof using HP. unfold auto_complex_data. assert (E : plus_cells (cmon K) (repeat (c0 K) N) (fun i => Sum (cmon K) (P' i) (@cx_prod_ordered K)) = map (cscal m) (plus_cells (cmon K) (repeat (c0 K) N) (fun i => Sum (cmon K) (P i) (@cx_prod_ordered K)))) by exact (hom_cells hom_cx N P P' _ HP g_ordered). rewrite E. tuples. Qed.
    Lemma auto_diff_gain : auto_diff_data P' N = gain_data u (op_scal (@real_ops K) m) (auto_diff_data P N).
    Proof using HP. unfold auto_diff_data. assert (E : plus_cells (fmon K) (repeat (f0 K) N) (fun i => Sum (fmon K) (P' i) (@sq_diff K)) = map (fmul K m) (plus_cells (fmon K) (repeat (f0 K) N) (fun i => Sum (fmon K) (P i) (@sq_diff K)))) by exact (hom_cells hom_re N P P' _ HP g_sq). rewrite E. unfold gain_data. rewrite g_cnt. reflexivity. Qed.
  End Data.
End GainApi.
