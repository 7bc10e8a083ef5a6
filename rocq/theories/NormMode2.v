(** Real parts of complex results, empty delays, accepted norms, flags and strings,
    fold_data. *)
From Verif Require Import Base Kernels PairSpec KernelProofs PairLemmas CoreModel CoreProofs CoreProofs3 NormModel NormSpec
  FftModel CorrModel CorrSpec CorrProofs CorrProofs2 NormProofs NormProofs2 NormApi NormAuto NormMap NormApi2 NormMode.
From Coq Require Import String Ascii Field ZifyBool ZifyNat.
Open Scope string_scope.
Open Scope nat_scope.
Local Notation length := List.length.
Set Implicit Arguments.

(* ------------------------------------------------------------------ *)
(** * Real part of the complex formulas *)
Section RealPart.
  Variable K : Fld.
  Notation C := (Cx K).
  Add Field Kfr : (flaw K).
  Ltac rg := match goal with |- @eq _ ?a ?b => change (@eq (fcar K) a b) end; ring.
  Ltac go n := destruct n as [|n']; [reflexivity|]; cbn [over cover fv_map fv_bind];
    apply (f_equal (@Fin _)); unfold csub, cadd, cmul, conj, cre, cim; cbn [fst snd];
    generalize (fnat_neq0 K n'); generalize (fnat K (S n')); intros ? ?; unfold half.
  Ltac fd := match goal with |- @eq _ ?a ?b => change (@eq (fcar K) a b) end; field; auto using two_neq0.

  Lemma fnat_S_neq0 n : fnat K (S n) <> f0 K.
  Proof. apply fnat_neq0. discriminate. Qed.
  Ltac prep n := destruct n as [|n']; [reflexivity|]; unfold over, cover; cbn [fv_map fv_bind];
    apply (f_equal (@Fin _)); unfold csub, cadd, cmul, conj, cre, cim; cbn [fst snd];
    pose proof (fnat_S_neq0 n') as HN; pose proof (@two_neq0 K) as H2; generalize dependent (fnat K (S n'));
    intros cnt HN; unfold half; fd.
  Lemma re_corr_baseline d n b1 b2 : fv_map (@cre K) (_normalize_corr_baseline_complex d n b1 b2) = _normalize_corr_baseline_real (cre d) n b1 b2.
  Proof. unfold _normalize_corr_baseline_complex, _normalize_corr_baseline_real. prep n. Qed.
  Lemma re_struct_baseline d n b1 b2 v sq : fv_map (@cre K) (_normalize_struct_baseline_complex d n b1 b2 v sq) = _normalize_struct_baseline_real (cre d) n b1 b2 v sq.
  Proof. unfold _normalize_struct_baseline_complex, _normalize_struct_baseline_real. prep n. Qed.
  Lemma re_corr_compensated d n m1 m2 : fv_map (@cre K) (_normalize_corr_compensated_complex d n m1 m2) = _normalize_corr_compensated_real (cre d) n m1 m2.
  Proof. unfold _normalize_corr_compensated_complex, _normalize_corr_compensated_real. prep n. Qed.
  Lemma re_struct_compensated d n v sq m1 m2 : fv_map (@cre K) (_normalize_struct_compensated_complex d n v sq m1 m2) = _normalize_struct_compensated_real (cre d) n v sq m1 m2.
  Proof. unfold _normalize_struct_compensated_complex, _normalize_struct_compensated_real. prep n. Qed.
  Lemma re_corr_subtracted d n b1 b2 m1 m2 : fv_map (@cre K) (_normalize_corr_subtracted_complex d n b1 b2 m1 m2) = _normalize_corr_subtracted_real (cre d) n b1 b2 m1 m2.
  Proof. unfold _normalize_corr_subtracted_complex, _normalize_corr_subtracted_real. prep n. Qed.
  Lemma re_struct_subtracted d n b1 b2 v sq m1 m2 : fv_map (@cre K) (_normalize_struct_subtracted_complex d n b1 b2 v sq m1 m2) = _normalize_struct_subtracted_real (cre d) n b1 b2 v sq m1 m2.
  Proof. unfold _normalize_struct_subtracted_complex, _normalize_struct_subtracted_real. prep n. Qed.

  (** The data with the real parts of the correlation only. *)
  Definition real_data (data : cdata K C) : cdata K K :=
    match data with
    | DCorr d c sq s1 s2 => DCorr (map (@cre K) d) c sq s1 s2
    | DDiff d c s1 s2 => DDiff (map (@cre K) d) c s1 s2
    | DBad => DBad
    end.
  Definition is_corr {V} (data : cdata K V) : bool := match data with DCorr _ _ _ _ _ => true | _ => false end.

  Lemma cells_re lens n (f : nat -> fval C) (g : nat -> fval K) : (forall i, fv_map (@cre K) (f i) = g i) ->
    on_result (@cre K) (cells lens n f) = cells lens n g.
  Proof.
    intros H. unfold cells. destruct (forallb _ _); [|reflexivity]. cbn. f_equal. rewrite map_map. apply map_ext. exact H.
  Qed.
  Lemma nth_re d i : nth i (map (@cre K) d) (f0 K) = cre (nth i d (c0 K)).
  Proof. change (f0 K) with (cre (c0 K)). apply map_nth. Qed.
  Lemma to_mode_re (b : bool) r var :
    on_result (@cre K) (if b then _corr2diff complex_ops r var else Ok r) =
    (if b then _corr2diff real_ops (map (fv_map (@cre K)) r) var else Ok (map (fv_map (@cre K)) r)).
  Proof.
    destruct b; [|reflexivity]. unfold _corr2diff. rewrite on_result_bind. destruct (scale_factor K var); [|reflexivity]. cbn [bind on_result].
    f_equal. rewrite !map_map. apply map_ext. intros [x|]; reflexivity.
  Qed.
  Lemma formula_re data b1 b2 var z mode : is_corr data = true ->
    on_result (@cre K) (normalize_formula complex_ops data b1 b2 var z mode) =
    normalize_formula real_ops (real_data data) b1 b2 var z mode.
  Proof.
    destruct data as [d c sq s1 s2| |]; try discriminate. intros _. unfold normalize_formula, real_data. rewrite map_length.
    assert (T : forall x y, on_result (@cre K) x = y ->
      on_result (@cre K) (let* r := x in if String.eqb mode "diff" then _corr2diff complex_ops r var else Ok r) =
      (let* r := y in if String.eqb mode "diff" then _corr2diff real_ops r var else Ok r)).
    { intros x y <-. destruct x as [r|]; [|reflexivity]. cbn [bind on_result]. apply to_mode_re. }
    destruct (z =? 1)%Z.
    { apply T, cells_re. intros i. rewrite nth_re. apply re_corr_baseline. }
    destruct (z =? 2)%Z.
    { rewrite on_result_bind. destruct (scale_factor K var) as [v|]; [|reflexivity]. cbn [bind].
      rewrite on_result_bind. destruct (need sq); [|reflexivity]. cbn [bind].
      apply T, cells_re. intros i. rewrite nth_re. apply re_struct_baseline. }
    destruct ((z =? 5) || (z =? 13))%Z.
    { rewrite on_result_bind. destruct (need s1); [|reflexivity]. cbn [bind].
      apply T, cells_re. intros i. rewrite nth_re. apply re_corr_subtracted. }
    destruct (z =? 9)%Z.
    { rewrite on_result_bind. destruct (need s1); [|reflexivity]. cbn [bind].
      apply T, cells_re. intros i. rewrite nth_re. apply re_corr_compensated. }
    destruct ((z =? 6) || (z =? 14))%Z.
    { rewrite on_result_bind. destruct (scale_factor K var) as [v|]; [|reflexivity]. cbn [bind].
      rewrite on_result_bind. destruct (need s1); [|reflexivity]. cbn [bind].
      rewrite on_result_bind. destruct (need sq); [|reflexivity]. cbn [bind].
      apply T, cells_re. intros i. rewrite nth_re. apply re_struct_subtracted. }
    destruct (z =? 10)%Z.
    { rewrite on_result_bind. destruct (scale_factor K var) as [v|]; [|reflexivity]. cbn [bind].
      rewrite on_result_bind. destruct (need s1); [|reflexivity]. cbn [bind].
      rewrite on_result_bind. destruct (need sq); [|reflexivity]. cbn [bind].
      apply T, cells_re. intros i. rewrite nth_re. apply re_struct_compensated. }
    reflexivity.
  Qed.

  Lemma weighted_re x y w : map (fv_map (@cre K)) (weighted_sum complex_ops x y w) =
    weighted_sum real_ops (map (fv_map (@cre K)) x) (map (fv_map (@cre K)) y) (map (fv_map (@cre K)) w).
  Proof.
    unfold weighted_sum. rewrite map_map. revert y w. induction x as [|a x IH]; intros y w; [reflexivity|].
    destruct y as [|b y]; [reflexivity|]. destruct w as [|c w]; [reflexivity|]. cbn [map combine]. rewrite IH. f_equal.
    destruct a as [a|]; [|reflexivity]. destruct b as [b|]; [|reflexivity]. destruct c as [c|]; reflexivity.
  Qed.

  (** [w] is given, or the norm found in [norm] is not weighted. *)
  Definition no_smoothing {V} (data : cdata K V) (norm : option normarg) (w : option (list (fval V))) : Prop :=
    w = None -> forall z nz, (match norm with Some (NStr s) => let* z := norm_from_string s in Ok (Some z)
                                   | Some (NInt z) => Ok (Some z) | None => Ok None end) = Ok nz ->
                  _default_norm_from_data data nz = Ok z -> (Z.land z 3 <> 3)%Z.

  Lemma body_re dn dn' rec rec' data bg var norm mode scale w : is_corr data = true ->
    (forall z, on_result (@cre K) (rec z) = rec' z) -> no_smoothing data norm w ->
    on_result (@cre K) (normalize_body complex_ops dn rec data bg var norm mode scale w) =
    normalize_body real_ops dn' rec' (real_data data) bg var norm mode scale (option_map (map (fv_map (@cre K))) w).
  Proof.
    intros HC HR HW. destruct data as [d c sq s1 s2| |]; try discriminate HC. unfold normalize_body.
    cbn [_method_from_data real_data bind]. rewrite ?on_result_bind.
    destruct (_inspect_mode mode) as [mode'|]; [|reflexivity]. cbn [bind]. rewrite ?on_result_bind.
    unfold no_smoothing in HW.
    match goal with |- bind ?x _ = _ => destruct x as [nz|] eqn:EN; [|reflexivity] end. cbn [bind]. rewrite ?on_result_bind.
    change (_default_norm_from_data (DCorr (map (@cre K) d) c sq s1 s2) nz) with (_default_norm_from_data (DCorr d c sq s1 s2) nz).
    destruct (_default_norm_from_data (DCorr d c sq s1 s2) nz) as [z|] eqn:ED; [|reflexivity]. cbn [bind]. rewrite ?on_result_bind.
    match goal with |- bind ?x _ = _ => destruct x as [sf|]; [|reflexivity] end. cbn [bind]. rewrite ?on_result_bind.
    match goal with |- bind ?x _ = _ => destruct x as [[b1 b2]|]; [|reflexivity] end. cbn [bind]. rewrite ?on_result_bind.
    destruct (Z.land z NORM_WEIGHTED =? NORM_WEIGHTED)%Z eqn:EW.
    - destruct w as [w|]; [|exfalso; apply (HW eq_refl z nz eq_refl ED); apply Z.eqb_eq; exact EW].
      rewrite <- !HR. rewrite ?on_result_bind. destruct (rec (Z.lor _ NORM_STRUCTURED)); [|reflexivity]. cbn [bind on_result]. rewrite ?on_result_bind.
      destruct (rec (Z.lor _ NORM_STANDARD)); [|reflexivity]. cbn [bind on_result]. rewrite ?on_result_bind.
      match goal with |- bind ?x _ = _ => destruct x; [|reflexivity] end. cbn [bind option_map on_result]. f_equal. apply weighted_re.
    - pose proof (@formula_re (DCorr d c sq s1 s2) b1 b2 var z mode' eq_refl) as HF. cbn [real_data] in HF. rewrite <- HF.
      rewrite ?on_result_bind. destruct (normalize_formula complex_ops _ b1 b2 var z mode'); [|reflexivity]. cbn [bind on_result]. f_equal.
      destruct scale; [|reflexivity]. rewrite !map_map. apply map_ext. intros [x|]; reflexivity.
  Qed.
  Theorem normalize_re dn dn' data bg var norm mode scale w : is_corr data = true -> no_smoothing data norm w ->
    on_result (@cre K) (normalize complex_ops dn data bg var norm mode scale w) =
    normalize real_ops dn' (real_data data) bg var norm mode scale (option_map (map (fv_map (@cre K))) w).
  Proof.
    intros HC HW. unfold normalize. apply body_re; auto. intros z. destruct (Z.eqb_spec (Z.land z 3) 3) as [E|E].
    - destruct data as [d c sq s1 s2| |]; try discriminate HC. unfold normalize_body.
      cbn [_method_from_data real_data bind]. rewrite ?on_result_bind.
      destruct (_inspect_mode mode) as [mode'|]; [|reflexivity]. cbn [bind]. rewrite ?on_result_bind.
      unfold _default_norm_from_data. rewrite norm_from_ccorr_data_spec. destruct (data_supports _ _ z); [|reflexivity]. cbn [bind]. rewrite ?on_result_bind.
      match goal with |- bind ?x _ = _ => destruct x as [sf|]; [|reflexivity] end. cbn [bind]. rewrite ?on_result_bind.
      match goal with |- bind ?x _ = _ => destruct x as [[b1 b2]|]; [|reflexivity] end. cbn [bind]. rewrite ?on_result_bind.
      change NORM_WEIGHTED with 3%Z. rewrite E. reflexivity.
    - apply (@body_re dn dn' (fun _ => Raise ValueError) (fun _ => Raise ValueError) data bg var (Some (NInt z)) mode scale None HC); [reflexivity|].
      intros _ z' nz En Ed. injection En as <-. destruct data as [d c sq s1 s2| |]; try discriminate HC.
      unfold _default_norm_from_data in Ed. rewrite norm_from_ccorr_data_spec in Ed. destruct (data_supports _ _ z); [|discriminate]. injection Ed as <-. exact E.
  Qed.
End RealPart.

(* ------------------------------------------------------------------ *)
(** * Empty delays *)
Section Empty.
  Variable K : Fld.
  Notation C := (Cx K).
  Variable V : Type.
  Variable O : NormOps K V.
  Variable dn : list (fval V) -> list (fval V).
  (** every formula of [O] gives no finite value for count zero *)
  Record empty_law : Prop := {
    el1 : forall d b1 b2, op_corr_baseline O d 0 b1 b2 = NonFin;
    el2 : forall d b1 b2 v q, op_struct_baseline O d 0 b1 b2 v q = NonFin;
    el3 : forall d m1 m2, op_corr_compensated O d 0 m1 m2 = NonFin;
    el4 : forall d v q m1 m2, op_struct_compensated O d 0 v q m1 m2 = NonFin;
    el5 : forall d b1 b2 m1 m2, op_corr_subtracted O d 0 b1 b2 m1 m2 = NonFin;
    el6 : forall d b1 b2 v q m1 m2, op_struct_subtracted O d 0 b1 b2 v q m1 m2 = NonFin;
    el7 : forall f, op_cdiff_1 O = Some f -> forall d x, f d 0 x = NonFin;
    el8 : forall f, op_cdiff_3 O = Some f -> forall d x m1 m2, f d 0 x m1 m2 = NonFin }.
  Hypothesis EL : empty_law.

  Definition counts (data : cdata K V) : list nat :=
    match data with DCorr _ c _ _ _ => c | DDiff _ c _ _ => c | DBad => [] end.
  Definition ok_at (i : nat) (r : res (list (fval V))) : Prop :=
    forall l x, r = Ok l -> nth_error l i = Some x -> x = NonFin.
  Lemma ok_at_bind X (x : res X) k i : (forall a, x = Ok a -> ok_at i (k a)) -> ok_at i (bind x k).
  Proof. intros H. destruct x as [a|]; [exact (H a eq_refl)|]. intros l y E. discriminate. Qed.
  Lemma ok_at_cells lens n f i : (f i = NonFin) -> ok_at i (cells lens n f).
  Proof.
    intros H l x E Hx. unfold cells in E. destruct (forallb _ _); [|discriminate]. injection E as <-.
    assert (Hi : i < n).
    { assert (HH : i < length (map f (seq 0 n))) by (apply nth_error_Some; rewrite Hx; discriminate). rewrite map_length, seq_length in HH. exact HH. }
    rewrite nth_error_map, (nth_error_nth' _ 0) in Hx by (rewrite seq_length; exact Hi).
    rewrite seq_nth in Hx by exact Hi. cbn in Hx. injection Hx as <-. exact H.
  Qed.
  Lemma ok_at_map g (r : list (fval V)) i : ok_at i (Ok r) -> ok_at i (Ok (map (fv_map g) r)).
  Proof.
    intros H l x E Hx. injection E as <-. rewrite nth_error_map in Hx. destruct (nth_error r i) as [y|] eqn:Ey; [|discriminate].
    cbn in Hx. injection Hx as <-. rewrite (H r y eq_refl Ey). reflexivity.
  Qed.
  Lemma ok_at_mode (b : bool) r var i : ok_at i r ->
    ok_at i (let* r := r in if b then _corr2diff O r var else Ok r) /\
    ok_at i (let* r := r in if b then _diff2corr O r var else Ok r).
  Proof.
    intros H. split; apply ok_at_bind; intros a ->; destruct b; try exact H;
      apply ok_at_bind; intros v _; apply ok_at_map; exact H.
  Qed.
  Lemma formula_empty data b1 b2 var z mode i : nth i (counts data) 0 = 0 ->
    ok_at i (normalize_formula O data b1 b2 var z mode).
  Proof.
    intros HZ. unfold normalize_formula. destruct data as [d c sq s1 s2|d c s1 s2|]; cbn [counts] in HZ.
    - destruct (z =? 1)%Z; [apply ok_at_mode, ok_at_cells; rewrite HZ; apply (el1 EL)|].
      destruct (z =? 2)%Z; [apply ok_at_bind; intros v _; apply ok_at_bind; intros sq' _; apply ok_at_mode, ok_at_cells; rewrite HZ; apply (el2 EL)|].
      destruct ((z =? 5) || (z =? 13))%Z; [apply ok_at_bind; intros [m1 m2] _; apply ok_at_mode, ok_at_cells; rewrite HZ; apply (el5 EL)|].
      destruct (z =? 9)%Z; [apply ok_at_bind; intros [m1 m2] _; apply ok_at_mode, ok_at_cells; rewrite HZ; apply (el3 EL)|].
      destruct ((z =? 6) || (z =? 14))%Z; [apply ok_at_bind; intros v _; apply ok_at_bind; intros [m1 m2] _; apply ok_at_bind; intros sq' _; apply ok_at_mode, ok_at_cells; rewrite HZ; apply (el6 EL)|].
      destruct (z =? 10)%Z; [apply ok_at_bind; intros v _; apply ok_at_bind; intros [m1 m2] _; apply ok_at_bind; intros sq' _; apply ok_at_mode, ok_at_cells; rewrite HZ; apply (el4 EL)|].
      intros l x E. discriminate.
    - destruct (z =? 2)%Z.
      { apply ok_at_bind; intros op Hop. destruct (op_cdiff_1 O) as [g|] eqn:E1; [|discriminate]. injection Hop as <-.
        apply ok_at_mode, ok_at_cells. rewrite HZ. apply (el7 EL E1). }
      destruct ((z =? 6) || (z =? 14))%Z.
      { apply ok_at_bind; intros op Hop. destruct (op_cdiff_3 O) as [g|] eqn:E1; [|discriminate]. injection Hop as <-.
        apply ok_at_bind; intros m1 _. apply ok_at_bind; intros m2 _.
        apply ok_at_mode, ok_at_cells. rewrite HZ. apply (el8 EL E1). }
      intros l x E. discriminate.
    - intros l x E. discriminate.
  Qed.
  Lemma weighted_empty x y w i : ok_at i (Ok x) -> ok_at i (Ok (weighted_sum O x y w)).
  Proof.
    intros H l v E Hv. injection E as <-. unfold weighted_sum in Hv. rewrite nth_error_map in Hv.
    destruct (nth_error (combine (combine x y) w) i) as [[[a b] c]|] eqn:Ec; [|discriminate]. cbn in Hv. injection Hv as <-.
    assert (Ha : nth_error x i = Some a).
    { clear H. revert y w i Ec. induction x as [|a' x IH]; intros [|b' y] [|c' w] [|i] Ec; cbn in Ec; try discriminate.
      - injection Ec as <- _ _. reflexivity.
      - cbn. exact (IH y w i Ec). }
    rewrite (H x a eq_refl Ha). reflexivity.
  Qed.
  Lemma body_empty rec data bg var norm mode scale w i : nth i (counts data) 0 = 0 -> (forall z, ok_at i (rec z)) ->
    ok_at i (normalize_body O dn rec data bg var norm mode scale w).
  Proof.
    intros HZ HR. unfold normalize_body. apply ok_at_bind; intros _ _. apply ok_at_bind; intros m _.
    apply ok_at_bind; intros nz _. apply ok_at_bind; intros z _. apply ok_at_bind; intros sf _. apply ok_at_bind; intros [b1 b2] _.
    destruct (Z.land z NORM_WEIGHTED =? NORM_WEIGHTED)%Z.
    - apply ok_at_bind; intros comp Ec. apply ok_at_bind; intros base _. apply ok_at_bind; intros sf' _. apply ok_at_bind; intros ww _.
      apply weighted_empty. rewrite <- Ec. apply HR.
    - apply ok_at_bind; intros r Er. assert (H := @formula_empty data b1 b2 var z m i HZ). rewrite Er in H.
      destruct scale; [apply ok_at_map|]; exact H.
  Qed.
  Theorem normalize_empty data bg var norm mode scale w i l x : nth i (counts data) 0 = 0 ->
    normalize O dn data bg var norm mode scale w = Ok l -> nth_error l i = Some x -> x = NonFin.
  Proof.
    intros HZ E Hx. revert l x E Hx. change (ok_at i (normalize O dn data bg var norm mode scale w)).
    apply body_empty; [exact HZ|]. intros z. apply body_empty; [exact HZ|]. intros z' l x E. discriminate.
  Qed.
End Empty.
Lemma real_empty_law K : empty_law (@real_ops K).
Proof. constructor; try reflexivity; cbn; intros f E; injection E as <-; reflexivity. Qed.
Lemma complex_empty_law K : empty_law (@complex_ops K).
Proof. constructor; try reflexivity; cbn; intros f E; discriminate. Qed.
