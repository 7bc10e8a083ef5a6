(** Overall phases: data tuples of signals multiplied by a phase, and their normalization. *)
From Verif Require Import Base Kernels PairSpec KernelProofs PairLemmas CoreModel CoreProofs CoreProofs3 NormModel NormSpec
  FftModel CorrModel CorrSpec CorrProofs CorrProofs2 NormProofs NormProofs2 NormApi NormAuto NormMap NormApi2 NormMode NormMode2 NormMode3 NormApi3 TurnProofs.
From Coq Require Import String Field ZifyBool ZifyNat.
Open Scope string_scope.
Open Scope nat_scope.
Local Notation length := List.length.
Set Implicit Arguments.

Section TurnData.
  Variable K : Fld.
  Add Field TDfield : (flaw K).
  Notation C := (Cx K).
  Notation "x + y" := (fadd K x y). Notation "x * y" := (fmul K x y). Notation "x - y" := (fsub K x y).
  Variable u : C.
  Hypothesis Hu : cnorm2 u = f1 K.

  (** The data tuple of signals multiplied by u: the sums of the signals are multiplied, the rest is kept. *)
  Definition turn_data V (d : cdata K V) : cdata K V :=
    match d with
    | DCorr d c sq s1 s2 => DCorr d c sq (option_map (map (cmul u)) s1) (option_map (map (cmul u)) s2)
    | DDiff d c s1 s2 => DDiff d c (option_map (map (cmul u)) s1) (option_map (map (cmul u)) s2)
    | DBad => DBad
    end.
  Definition turn_stat (b : statarg C) : statarg C :=
    match b with SNone => SNone | SOne b => SOne (cmul u b) | STwo a b => STwo (cmul u a) (cmul u b) end.

  Lemma u_sq : cre u * cre u = f1 K - cim u * cim u.
  Proof. unfold cnorm2 in Hu. rewrite <- Hu. ring. Qed.

  (** The formulas do not see the phase. *)
  Record blind_ops V (O : NormOps K V) : Prop := {
    bl_cb : forall d c a b, op_corr_baseline O d c (cmul u a) (cmul u b) = op_corr_baseline O d c a b;
    bl_sb : forall d c a b v q, op_struct_baseline O d c (cmul u a) (cmul u b) v q = op_struct_baseline O d c a b v q;
    bl_cc : forall d c a b, op_corr_compensated O d c (cmul u a) (cmul u b) = op_corr_compensated O d c a b;
    bl_sc : forall d c v q a b, op_struct_compensated O d c v q (cmul u a) (cmul u b) = op_struct_compensated O d c v q a b;
    bl_cs : forall d c a b m n, op_corr_subtracted O d c (cmul u a) (cmul u b) (cmul u m) (cmul u n) = op_corr_subtracted O d c a b m n;
    bl_ss : forall d c a b v q m n, op_struct_subtracted O d c (cmul u a) (cmul u b) v q (cmul u m) (cmul u n) = op_struct_subtracted O d c a b v q m n;
    bl_d1 : forall op, op_cdiff_1 O = Some op -> forall d c a, op d c (cmul u a) = op d c a;
    bl_d3 : forall op, op_cdiff_3 O = Some op -> forall d c a m n, op d c (cmul u a) (cmul u m) (cmul u n) = op d c a m n }.

  Ltac fin c := destruct c as [|c]; [reflexivity|]; unfold cover, over, fv_map, fv_bind; cbn [fst snd]; f_equal.
  Ltac solve_k :=
    unfold csub, cadd, cmul, conj, cnorm2, cre, cim, half; cbn [fst snd];
    match goal with |- @eq _ ?a ?b => change (@eq (fcar K) a b) end.
  Lemma blind_real : blind_ops (@real_ops K).
  Proof using Hu.
    pose proof u_sq as H. unfold cre, cim in H. 
    split; cbn [real_ops op_corr_baseline op_struct_baseline op_corr_compensated op_struct_compensated op_corr_subtracted op_struct_subtracted op_cdiff_1 op_cdiff_3].
    all: try (intros op E; injection E as <-).
    all: intros d c; intros; destruct c as [|c]; [reflexivity|]; pose proof (@fnat_neq0 K (S c) (Nat.neq_succ_0 c)) as Hc; remember (fnat K (S c)) as nc eqn:Enc in Hc; pose proof (Kernels.two_neq0 K) as H2.
    all: unfold _normalize_corr_baseline_real, _normalize_struct_baseline_real, _normalize_corr_compensated_real, _normalize_struct_compensated_real,
       _normalize_corr_subtracted_real, _normalize_struct_subtracted_real, _normalize_cdiff_1, _normalize_cdiff_3, over, fv_map, fv_bind; rewrite <- ?Enc; clear Enc; f_equal; solve_k; try ring [H]; field [H]; repeat split; auto.
  Qed.
  Lemma blind_complex : blind_ops (@complex_ops K).
  Proof using Hu.
    pose proof u_sq as H. unfold cre, cim in H. 
    split; cbn [complex_ops op_corr_baseline op_struct_baseline op_corr_compensated op_struct_compensated op_corr_subtracted op_struct_subtracted op_cdiff_1 op_cdiff_3].
    all: try discriminate.
    all: intros d c; intros; destruct c as [|c]; [reflexivity|]; pose proof (@fnat_neq0 K (S c) (Nat.neq_succ_0 c)) as Hc; remember (fnat K (S c)) as nc eqn:Enc in Hc; pose proof (Kernels.two_neq0 K) as H2.
    all: unfold _normalize_corr_baseline_complex, _normalize_struct_baseline_complex, _normalize_corr_compensated_complex, _normalize_struct_compensated_complex,
       _normalize_corr_subtracted_complex, _normalize_struct_subtracted_complex, over, cover, fv_map, fv_bind; cbn [cre cim fst snd]; rewrite <- ?Enc; clear Enc; f_equal; unfold cadd, csub; f_equal; solve_k; try ring [H]; field [H]; repeat split; auto.
  Qed.

  Section Norm.
    Variable V : Type.
    Variable O : NormOps K V.
    Hypothesis HO : blind_ops O.
    Variable denoise : list (fval V) -> list (fval V).
    Lemma turn_zero : cmul u (c0 K) = c0 K.
    Proof. unfold cmul, c0, cre, cim; cbn [fst snd]. f_equal; solve_k; ring. Qed.
    Lemma turn_nth l i : nth i (map (cmul u) l) (c0 K) = cmul u (nth i l (c0 K)).
    Proof. rewrite <- turn_zero at 1. apply map_nth. Qed.
    Lemma csub_turn a b : csub (cmul u a) (cmul u b) = cmul u (csub a b).
    Proof. unfold cmul, csub, cre, cim; cbn [fst snd]. f_equal; solve_k; ring. Qed.
    Lemma cells_ext lens n f g : (forall i, f i = g i) -> @cells V lens n f = cells lens n g.
    Proof. intros H. unfold cells. destruct (forallb (Nat.eqb n) lens); [|reflexivity]. f_equal. apply map_ext. exact H. Qed.
    Lemma means_two s1 s2 : match option_map (map (cmul u)) s2 with Some m => m | None => map (cmul u) s1 end = map (cmul u) (match s2 with Some m => m | None => s1 end).
    Proof. destruct s2; reflexivity. Qed.
    Lemma formula_turn data bg1 bg2 var z mode :
      normalize_formula O (turn_data data) (cmul u bg1) (cmul u bg2) var z mode = normalize_formula O data bg1 bg2 var z mode.
    Proof using HO.
      destruct data as [d c sq s1 s2|d c s1 s2|]; [| |reflexivity]; unfold normalize_formula, turn_data.
      - destruct (z =? 1)%Z; [rewrite (@cells_ext _ _ _ _ (fun i => bl_cb HO _ _ _ _)); reflexivity|].
        destruct (z =? 2)%Z.
        { destruct (scale_factor K var); [|reflexivity]. destruct sq; [|reflexivity]. cbn [bind need]. rewrite (@cells_ext _ _ _ _ (fun i => bl_sb HO _ _ _ _ _ _)); reflexivity. }
        destruct ((z =? 5) || (z =? 13))%Z.
        { destruct s1 as [s1|]; [|reflexivity]. cbn [option_map need bind]. rewrite means_two. set (m2 := match s2 with Some m2 => m2 | None => s1 end). rewrite !map_length. rewrite (@cells_ext _ _ _ (fun i => op_corr_subtracted O (nth i d (op_zero O)) (nth i c 0) bg1 bg2 (nth i s1 (c0 K)) (nth i m2 (c0 K)))); [reflexivity|]. intros i. rewrite !turn_nth. apply (bl_cs HO). }
        destruct (z =? 9)%Z.
        { destruct s1 as [s1|]; [|reflexivity]. cbn [option_map need bind]. rewrite means_two. set (m2 := match s2 with Some m2 => m2 | None => s1 end). rewrite !map_length. rewrite (@cells_ext _ _ _ (fun i => op_corr_compensated O (nth i d (op_zero O)) (nth i c 0) (nth i s1 (c0 K)) (nth i m2 (c0 K)))); [reflexivity|]. intros i. rewrite !turn_nth. apply (bl_cc HO). }
        destruct ((z =? 6) || (z =? 14))%Z.
        { destruct (scale_factor K var); [|reflexivity]. destruct s1 as [s1|]; [|reflexivity]. destruct sq; [|destruct s2; reflexivity]. cbn [option_map need bind]. rewrite means_two. set (m2 := match s2 with Some m2 => m2 | None => s1 end). rewrite !map_length. rewrite (@cells_ext _ _ _ (fun i => op_struct_subtracted O (nth i d (op_zero O)) (nth i c 0) bg1 bg2 a (nth i l (f0 K)) (nth i s1 (c0 K)) (nth i m2 (c0 K)))); [reflexivity|]. intros i. rewrite !turn_nth. apply (bl_ss HO). }
        destruct (z =? 10)%Z; [|reflexivity].
        { destruct (scale_factor K var); [|reflexivity]. destruct s1 as [s1|]; [|reflexivity]. destruct sq; [|destruct s2; reflexivity]. cbn [option_map need bind]. rewrite means_two. set (m2 := match s2 with Some m2 => m2 | None => s1 end). rewrite !map_length. rewrite (@cells_ext _ _ _ (fun i => op_struct_compensated O (nth i d (op_zero O)) (nth i c 0) a (nth i l (f0 K)) (nth i s1 (c0 K)) (nth i m2 (c0 K)))); [reflexivity|]. intros i. rewrite !turn_nth. apply (bl_sc HO). }
      - rewrite csub_turn. destruct (z =? 2)%Z.
        { destruct (op_cdiff_1 O) as [op|] eqn:E; [|reflexivity]. cbn [need bind]. rewrite (@cells_ext _ _ _ _ (fun i => bl_d1 HO E _ _ _)); reflexivity. }
        destruct ((z =? 6) || (z =? 14))%Z; [|reflexivity].
        destruct (op_cdiff_3 O) as [op|] eqn:E; [|reflexivity]. destruct s1 as [s1|]; [|reflexivity]. destruct s2 as [s2|]; [|reflexivity]. cbn [need bind option_map]. rewrite !map_length.
        rewrite (@cells_ext _ _ _ (fun i => op (nth i d (op_zero O)) (nth i c 0) (csub bg2 bg1) (nth i s1 (c0 K)) (nth i s2 (c0 K)))); [reflexivity|]. intros i. rewrite !turn_nth. apply (bl_d3 HO E).
    Qed.
    Lemma given_map A B (f : A -> B) o : given (option_map f o) = given o. Proof. destruct o; reflexivity. Qed.
    Lemma body_turn rec rec' data bg var norm mode scale w : (forall z, rec' z = rec z) ->
      normalize_body O denoise rec' (turn_data data) (turn_stat bg) var norm mode scale w = normalize_body O denoise rec data bg var norm mode scale w.
    Proof using HO.
      intros HR. unfold normalize_body.
      replace (_method_from_data (turn_data data)) with (_method_from_data data) by (destruct data; reflexivity).
      destruct (_method_from_data data); [cbn [bind]|reflexivity]. destruct (_inspect_mode mode) as [md|]; [cbn [bind]|reflexivity].
      match goal with |- bind ?x _ = _ => destruct x as [nz|]; [cbn [bind]|reflexivity] end.
      replace (_default_norm_from_data (turn_data data) nz) with (_default_norm_from_data data nz)
        by (destruct data; cbn [turn_data _default_norm_from_data]; rewrite ?given_map; reflexivity).
      destruct (_default_norm_from_data data nz) as [z|]; [cbn [bind]|reflexivity].
      match goal with |- bind ?x _ = _ => destruct x as [sf|]; [cbn [bind]|reflexivity] end.
      assert (E : _inspect_background (turn_stat bg) z = let* (a, b) := _inspect_background bg z in Ok (cmul u a, cmul u b)).
      { destruct bg; cbn; try reflexivity. destruct (0 <? z)%Z; [reflexivity|]. cbn. rewrite turn_zero. reflexivity. }
      rewrite E. destruct (_inspect_background bg z) as [[b1 b2]|]; [cbn [bind]|reflexivity].
      rewrite !HR, formula_turn. reflexivity.
    Qed.
    (** The normalized data does not see a common phase of the signals, whatever the other arguments. *)
    Lemma normalize_turn data bg var norm mode scale w :
      normalize O denoise (turn_data data) (turn_stat bg) var norm mode scale w = normalize O denoise data bg var norm mode scale w.
    Proof using HO. unfold normalize. apply body_turn. intros z. apply body_turn. reflexivity. Qed.
  End Norm.
End TurnData.
