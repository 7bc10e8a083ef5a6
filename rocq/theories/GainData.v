(** Signals multiplied by a number: their data tuples, and the normalization of these. *)
From Verif Require Import Base Kernels PairSpec KernelProofs PairLemmas CoreModel CoreProofs CoreProofs3 NormModel NormSpec
  FftModel CorrModel CorrSpec CorrProofs CorrProofs2 NormProofs NormProofs2 NormApi NormAuto NormMap NormApi2 NormMode NormMode2 NormMode3 NormApi3 WeightApi TurnProofs TurnData.
From Coq Require Import String Field ZifyBool ZifyNat.
Open Scope string_scope.
Open Scope nat_scope.
Local Notation length := List.length.
Set Implicit Arguments.

Section GainData.
  Variable K : Fld.
  Add Field GDfield : (flaw K).
  Notation C := (Cx K).
  Notation "x + y" := (fadd K x y). Notation "x * y" := (fmul K x y). Notation "x - y" := (fsub K x y).
  Variable u : C.
  Notation m := (cnorm2 u).

  (** The variance of signals multiplied by u *)
  Definition gain_var (v : statarg K) : statarg K :=
    match v with SNone => SNone | SOne v => SOne (m * v) | STwo a b => STwo (m * a) (m * b) end.
  Lemma gain_factor v : scale_factor K (gain_var v) = let* s := scale_factor K v in Ok (m * s).
  Proof.
    destruct v as [|a|a b]; cbn; try reflexivity. f_equal. pose proof (Kernels.two_neq0 K). match goal with |- @eq _ ?a ?b => change (@eq (fcar K) a b) end. field. assumption.
  Qed.
  Lemma m_sq : cre u * cre u = m - cim u * cim u.
  Proof. unfold cnorm2. ring. Qed.

  (** The formulas give m times the result. *)
  Record gain_ops V (O : NormOps K V) : Prop := {
    ga_zero : op_scal O m (op_zero O) = op_zero O;
    ga_cb : forall d c a b, op_corr_baseline O (op_scal O m d) c (cmul u a) (cmul u b) = fv_map (op_scal O m) (op_corr_baseline O d c a b);
    ga_sb : forall d c a b v q, op_struct_baseline O (op_scal O m d) c (cmul u a) (cmul u b) (m * v) (m * q) = fv_map (op_scal O m) (op_struct_baseline O d c a b v q);
    ga_cc : forall d c a b, op_corr_compensated O (op_scal O m d) c (cmul u a) (cmul u b) = fv_map (op_scal O m) (op_corr_compensated O d c a b);
    ga_sc : forall d c v q a b, op_struct_compensated O (op_scal O m d) c (m * v) (m * q) (cmul u a) (cmul u b) = fv_map (op_scal O m) (op_struct_compensated O d c v q a b);
    ga_cs : forall d c a b k n, op_corr_subtracted O (op_scal O m d) c (cmul u a) (cmul u b) (cmul u k) (cmul u n) = fv_map (op_scal O m) (op_corr_subtracted O d c a b k n);
    ga_ss : forall d c a b v q k n, op_struct_subtracted O (op_scal O m d) c (cmul u a) (cmul u b) (m * v) (m * q) (cmul u k) (cmul u n) = fv_map (op_scal O m) (op_struct_subtracted O d c a b v q k n);
    ga_d1 : forall op, op_cdiff_1 O = Some op -> forall d c a, op (op_scal O m d) c (cmul u a) = fv_map (op_scal O m) (op d c a);
    ga_d3 : forall op, op_cdiff_3 O = Some op -> forall d c a k n, op (op_scal O m d) c (cmul u a) (cmul u k) (cmul u n) = fv_map (op_scal O m) (op d c a k n);
    ga_shift : forall k x v, op_shift O (op_scal O k (op_scal O m x)) (m * v) = op_scal O m (op_shift O (op_scal O k x) v);
    ga_over : forall x v, m <> f0 K -> v <> f0 K -> op_over O (op_scal O m x) (m * v) = op_over O x v;
    ga_weighted : forall x y w, op_weighted O (op_scal O m x) (op_scal O m y) w = op_scal O m (op_weighted O x y w) }.

  Ltac solve_k H :=
    unfold csub, cadd, cmul, cscal, conj, cnorm2, cre, cim, half, _weighted_sum_real; cbn [fst snd];
    match goal with |- @eq _ ?a ?b => change (@eq (fcar K) a b) end; try ring [H].
  Lemma gain_real : gain_ops (@real_ops K).
  Proof.
    pose proof (Kernels.two_neq0 K) as H2.
    split; cbn [real_ops op_zero op_scal op_shift op_over op_weighted op_corr_baseline op_struct_baseline op_corr_compensated op_struct_compensated op_corr_subtracted op_struct_subtracted op_cdiff_1 op_cdiff_3].
    all: try (intros op E; injection E as <-).
    1: ring.
    1-8: intros d c; intros; destruct c as [|c]; [reflexivity|]; pose proof (@fnat_neq0 K (S c) (Nat.neq_succ_0 c)) as Hc; remember (fnat K (S c)) as nc eqn:Enc in Hc.
    1-8: unfold _normalize_corr_baseline_real, _normalize_struct_baseline_real, _normalize_corr_compensated_real, _normalize_struct_compensated_real,
       _normalize_corr_subtracted_real, _normalize_struct_subtracted_real, _normalize_cdiff_1, _normalize_cdiff_3, over, fv_map, fv_bind; rewrite <- ?Enc; clear Enc; f_equal;
       unfold csub, cadd, cmul, cscal, conj, cnorm2, cre, cim, half; cbn [fst snd]; match goal with |- @eq _ ?a ?b => change (@eq (fcar K) a b) end; try ring; field; repeat split; auto.
    - intros. ring.
    - intros. field. auto.
    - intros. unfold _weighted_sum_real. ring.
  Qed.
  Lemma gain_complex : gain_ops (@complex_ops K).
  Proof.
    pose proof (Kernels.two_neq0 K) as H2.
    split; cbn [complex_ops op_zero op_scal op_shift op_over op_weighted op_corr_baseline op_struct_baseline op_corr_compensated op_struct_compensated op_corr_subtracted op_struct_subtracted op_cdiff_1 op_cdiff_3].
    all: try discriminate.
    1: unfold cscal, c0, cre, cim; cbn [fst snd]; f_equal; match goal with |- @eq _ ?a ?b => change (@eq (fcar K) a b) end; ring.
    1-6: intros d c; intros; destruct c as [|c]; [reflexivity|]; pose proof (@fnat_neq0 K (S c) (Nat.neq_succ_0 c)) as Hc; remember (fnat K (S c)) as nc eqn:Enc in Hc.
    1-6: unfold _normalize_corr_baseline_complex, _normalize_struct_baseline_complex, _normalize_corr_compensated_complex, _normalize_struct_compensated_complex,
       _normalize_corr_subtracted_complex, _normalize_struct_subtracted_complex, over, cover, fv_map, fv_bind; cbn [cre cim fst snd]; rewrite <- ?Enc; clear Enc; f_equal;
       unfold csub, cadd, cmul, cscal, conj, cnorm2, cre, cim, half; cbn [fst snd]; f_equal; match goal with |- @eq _ ?a ?b => change (@eq (fcar K) a b) end; try ring; field; repeat split; auto.
    all: intros; unfold cscal, cadd, csub, cmul, cre, cim; cbn [fst snd]; try (f_equal; match goal with |- @eq _ ?a ?b => change (@eq (fcar K) a b) end; try ring; field; auto).
  all: unfold _weighted_sum_complex, cscal, cre, cim; cbn [fst snd]; f_equal; match goal with |- @eq _ ?a ?b => change (@eq (fcar K) a b) end; ring.
  Qed.

  (** The data tuple of signals multiplied by u *)
  Definition gain_data V (sv : V -> V) (d : cdata K V) : cdata K V :=
    match d with
    | DCorr d c sq s1 s2 => DCorr (map sv d) c (option_map (map (fmul K m)) sq) (option_map (map (cmul u)) s1) (option_map (map (cmul u)) s2)
    | DDiff d c s1 s2 => DDiff (map sv d) c (option_map (map (cmul u)) s1) (option_map (map (cmul u)) s2)
    | DBad => DBad
    end.

  Section Norm.
    Variable V : Type.
    Variable O : NormOps K V.
    Hypothesis HO : gain_ops O.
    Variable denoise : list (fval V) -> list (fval V).
    Notation sv := (op_scal O m).
    Lemma gain_nth l i : nth i (map sv l) (op_zero O) = sv (nth i l (op_zero O)).
    Proof using HO. rewrite <- (ga_zero HO) at 1. apply map_nth. Qed.
    Lemma sq_nth l i : nth i (map (fmul K m) l) (f0 K) = m * nth i l (f0 K).
    Proof. replace (f0 K) with (m * f0 K) at 1 by ring. apply map_nth. Qed.
    Lemma cells_map lens n f g : (forall i, f i = fv_map sv (g i)) -> @cells V lens n f = on_result sv (cells lens n g).
    Proof.
      intros H. unfold cells, on_result. destruct (forallb (Nat.eqb n) lens); [|reflexivity]. cbn [bind]. f_equal. rewrite map_map. apply map_ext. exact H.
    Qed.
    Lemma to_diff r var : _corr2diff O (map (fv_map sv) r) (gain_var var) = on_result sv (_corr2diff O r var).
    Proof using HO.
      unfold _corr2diff, on_result. rewrite gain_factor. destruct (scale_factor K var) as [v|]; [|reflexivity]. cbn [bind]. f_equal. rewrite !map_map. apply map_ext.
      intros [x|]; [|reflexivity]. cbn [fv_map]. f_equal. rewrite <- (ga_shift HO). f_equal. ring.
    Qed.
    Lemma to_corr r var : _diff2corr O (map (fv_map sv) r) (gain_var var) = on_result sv (_diff2corr O r var).
    Proof using HO.
      unfold _diff2corr, on_result. rewrite gain_factor. destruct (scale_factor K var) as [v|]; [|reflexivity]. cbn [bind]. f_equal. rewrite !map_map. apply map_ext.
      intros [x|]; [|reflexivity]. cbn [fv_map]. f_equal. apply (ga_shift HO).
    Qed.
    Lemma finish (c c' : res (list (fval V))) var (b : bool) : c' = on_result sv c ->
      (let* r := c' in if b then _corr2diff O r (gain_var var) else Ok r) = on_result sv (let* r := c in if b then _corr2diff O r var else Ok r) /\
      (let* r := c' in if b then _diff2corr O r (gain_var var) else Ok r) = on_result sv (let* r := c in if b then _diff2corr O r var else Ok r).
    Proof using HO.
      intros ->. destruct c as [r|]; [|split; reflexivity]. unfold on_result at 1 3. cbn [bind]. destruct b; [split; [apply to_diff|apply to_corr]|split; reflexivity].
    Qed.
    Lemma formula_gain data bg1 bg2 var z mode :
      normalize_formula O (gain_data sv data) (cmul u bg1) (cmul u bg2) (gain_var var) z mode = on_result sv (normalize_formula O data bg1 bg2 var z mode).
    Proof using HO.
      destruct data as [d c sq s1 s2|d c s1 s2|]; [| |reflexivity]; unfold normalize_formula, gain_data; rewrite ?gain_factor, ?map_length.
      - destruct (z =? 1)%Z; [apply finish, cells_map; intros i; rewrite gain_nth; apply (ga_cb HO)|].
        destruct (z =? 2)%Z.
        { destruct (scale_factor K var) as [v|]; [|reflexivity]. destruct sq; [|reflexivity]. cbn [bind need option_map]. rewrite map_length. apply finish, cells_map. intros i. rewrite gain_nth, sq_nth. apply (ga_sb HO). }
        destruct ((z =? 5) || (z =? 13))%Z.
        { destruct s1 as [s1|]; [|reflexivity]. cbn [option_map need bind]. rewrite means_two. set (m2 := match s2 with Some m2 => m2 | None => s1 end). rewrite !map_length. apply finish, cells_map. intros i. rewrite gain_nth, !turn_nth. apply (ga_cs HO). }
        destruct (z =? 9)%Z.
        { destruct s1 as [s1|]; [|reflexivity]. cbn [option_map need bind]. rewrite means_two. set (m2 := match s2 with Some m2 => m2 | None => s1 end). rewrite !map_length. apply finish, cells_map. intros i. rewrite gain_nth, !turn_nth. apply (ga_cc HO). }
        destruct ((z =? 6) || (z =? 14))%Z.
        { destruct (scale_factor K var) as [v|]; [|reflexivity]. destruct s1 as [s1|]; [|reflexivity]. destruct sq as [sq|]; [|destruct s2; reflexivity]. cbn [option_map need bind]. rewrite means_two. set (m2 := match s2 with Some m2 => m2 | None => s1 end). rewrite !map_length. apply finish, cells_map. intros i. rewrite gain_nth, sq_nth, !turn_nth. apply (ga_ss HO). }
        destruct (z =? 10)%Z; [|reflexivity].
        { destruct (scale_factor K var) as [v|]; [|reflexivity]. destruct s1 as [s1|]; [|reflexivity]. destruct sq as [sq|]; [|destruct s2; reflexivity]. cbn [option_map need bind]. rewrite means_two. set (m2 := match s2 with Some m2 => m2 | None => s1 end). rewrite !map_length. apply finish, cells_map. intros i. rewrite gain_nth, sq_nth, !turn_nth. apply (ga_sc HO). }
      - rewrite csub_turn. destruct (z =? 2)%Z.
        { destruct (op_cdiff_1 O) as [op|] eqn:E; [|reflexivity]. cbn [need bind]. apply finish, cells_map. intros i. rewrite gain_nth. apply (ga_d1 HO E). }
        destruct ((z =? 6) || (z =? 14))%Z; [|reflexivity].
        destruct (op_cdiff_3 O) as [op|] eqn:E; [|reflexivity]. destruct s1 as [s1|]; [|reflexivity]. destruct s2 as [s2|]; [|reflexivity]. cbn [need bind option_map]. rewrite !map_length.
        apply finish, cells_map. intros i. rewrite gain_nth, !turn_nth. apply (ga_d3 HO E).
    Qed.
    Lemma gain_back bg z : _inspect_background (turn_stat u bg) z = let* (a, b) := _inspect_background bg z in Ok (cmul u a, cmul u b).
    Proof. destruct bg; cbn; try reflexivity. destruct (0 <? z)%Z; [reflexivity|]. cbn. rewrite turn_zero. reflexivity. Qed.
    Lemma gain_method data : _method_from_data (gain_data sv data) = _method_from_data data.
    Proof. destruct data; reflexivity. Qed.
    Lemma gain_norm data nz : _default_norm_from_data (gain_data sv data) nz = _default_norm_from_data data nz.
    Proof. destruct data; cbn [gain_data _default_norm_from_data]; rewrite ?given_map; reflexivity. Qed.
    Lemma gain_delta var v : m <> f0 K -> scale_factor K var = Ok v -> v <> f0 K -> noise_delta K (gain_var var) true = noise_delta K var true.
    Proof.
      intros Hm E Hv. destruct var as [|a|a b]; cbn in *; try reflexivity. injection E as <-. pose proof (Kernels.two_neq0 K) as H2.
      match goal with |- @eq _ ?a ?b => change (@eq (fcar K) a b) end. field.
      assert (S : a + b <> f0 K) by (intros S; apply Hv; rewrite S; field; exact H2). split; [exact S|]. intros X. apply S. 
      assert (Y : m * (a + b) = f0 K) by (rewrite <- X; ring). assert (Z : a + b = fdiv K (m * (a + b)) m) by (field; exact Hm). rewrite Z, Y. field. exact Hm.
    Qed.
    Lemma body_gain rec rec' data bg var norm mode w : m <> f0 K -> (forall v, scale_factor K var = Ok v -> v <> f0 K) -> (forall z, rec' z = rec z) ->
      normalize_body O denoise rec' (gain_data sv data) (turn_stat u bg) (gain_var var) norm mode true w = normalize_body O denoise rec data bg var norm mode true w.
    Proof using HO.
      intros Hm Hv HR. unfold normalize_body. rewrite gain_method.
      destruct (_method_from_data data); [cbn [bind]|reflexivity]. destruct (_inspect_mode mode) as [md|]; [cbn [bind]|reflexivity].
      match goal with |- bind ?x _ = _ => destruct x as [nz|]; [cbn [bind]|reflexivity] end. rewrite gain_norm.
      destruct (_default_norm_from_data data nz) as [z|]; [cbn [bind]|reflexivity]. rewrite gain_factor.
      destruct (scale_factor K var) as [v|] eqn:Ev; [cbn [bind]|reflexivity]. specialize (Hv v eq_refl).
      rewrite gain_back. destruct (_inspect_background bg z) as [[b1 b2]|]; [cbn [bind]|reflexivity].
      rewrite !HR, formula_gain. rewrite (gain_delta var Hm Ev Hv). destruct (_ =? _)%Z; [reflexivity|].
      destruct (normalize_formula O data b1 b2 var z md) as [r|]; [|reflexivity]. unfold on_result. cbn [bind]. f_equal. rewrite map_map. apply map_ext. intros [x|]; [|reflexivity].
      cbn [fv_map]. f_equal. apply (ga_over HO); assumption.
    Qed.
    (** With scale=True the normalized data does not see a common factor of the signals, whatever the other arguments. *)
    Lemma normalize_gain data bg var norm mode w : m <> f0 K -> (forall v, scale_factor K var = Ok v -> v <> f0 K) ->
      normalize O denoise (gain_data sv data) (turn_stat u bg) (gain_var var) norm mode true w = normalize O denoise data bg var norm mode true w.
    Proof using HO. intros Hm Hv. unfold normalize. apply body_gain; [exact Hm|exact Hv|]. intros z. apply body_gain; [exact Hm|exact Hv|reflexivity]. Qed.

    Lemma kept_bits z b : Z.land b 3 <> 3%Z -> Z.land (Z.lor (Z.land z (Z.lor NORM_SUBTRACTED NORM_COMPENSATED)) b) 3 <> 3%Z.
    Proof.
      intros H. change (Z.lor NORM_SUBTRACTED NORM_COMPENSATED) with 12%Z. rewrite Z.land_lor_distr_l, <- Z.land_assoc. change (Z.land 12 3) with 0%Z. rewrite Z.land_0_r, Z.lor_0_l. exact H.
    Qed.
    Lemma body_gain_plain rec rec' data bg var norm mode w : w <> None \/ (exists z, norm = Some (NInt z) /\ Z.land z 3 <> 3%Z) ->
      (forall z, Z.land z 3 <> 3%Z -> rec' z = on_result sv (rec z)) ->
      normalize_body O denoise rec' (gain_data sv data) (turn_stat u bg) (gain_var var) norm mode false w = on_result sv (normalize_body O denoise rec data bg var norm mode false w).
    Proof using HO.
      intros HW HR. unfold normalize_body. rewrite gain_method.
      destruct (_method_from_data data); [cbn [bind]|reflexivity]. destruct (_inspect_mode mode) as [md|]; [cbn [bind]|reflexivity].
      match goal with |- bind ?x _ = on_result _ (bind ?x _) => destruct x as [nz|] eqn:En; [cbn [bind]|reflexivity] end. rewrite gain_norm.
      destruct (_default_norm_from_data data nz) as [z|] eqn:Ez; [cbn [bind]|reflexivity]. rewrite gain_factor.
      rewrite gain_back. destruct (_inspect_background bg z) as [[b1 b2]|]; [cbn [bind]|reflexivity].
      rewrite !HR by (apply kept_bits; discriminate). rewrite formula_gain. change NORM_WEIGHTED with 3%Z. destruct (Z.eqb_spec (Z.land z 3) 3) as [E|E].
      - destruct w as [w|].
        2: { destruct HW as [HW|(z0 & -> & HW)]; [contradiction|]. injection En as <-. rewrite default_norm_spec in Ez. destruct (supports data z0); [|discriminate]. injection Ez as <-. contradiction. }
        destruct (rec (Z.lor (Z.land z (Z.lor NORM_SUBTRACTED NORM_COMPENSATED)) NORM_STRUCTURED)) as [x|]; [|reflexivity]. unfold on_result at 1. cbn [bind].
        destruct (rec (Z.lor (Z.land z (Z.lor NORM_SUBTRACTED NORM_COMPENSATED)) NORM_STANDARD)) as [y|]; [|reflexivity]. unfold on_result at 1. cbn [bind].
        destruct (scale_factor K var) as [v|]; [|reflexivity]. unfold on_result. cbn [bind]. f_equal. unfold weighted_sum. clear -HO.
        revert y w. induction x as [|a x IH]; intros [|b y] [|c w]; cbn [map combine]; try reflexivity. f_equal; [|apply IH].
        cbn [fst snd]. destruct a, b, c; cbn [fv_map fv_bind]; try reflexivity. f_equal. apply (ga_weighted HO).
      - destruct (normalize_formula O data b1 b2 var z md) as [r|]; reflexivity.
    Qed.
    (** Without scaling the result is multiplied by the squared modulus, if the weights are given or not used. *)
    Lemma normalize_gain_plain data bg var norm mode w : w <> None \/ (exists z, norm = Some (NInt z) /\ Z.land z 3 <> 3%Z) ->
      normalize O denoise (gain_data sv data) (turn_stat u bg) (gain_var var) norm mode false w = on_result sv (normalize O denoise data bg var norm mode false w).
    Proof using HO.
      intros HW. unfold normalize. apply body_gain_plain; [exact HW|]. intros z Hz. apply body_gain_plain; [right; exists z; split; [reflexivity|exact Hz]|reflexivity].
    Qed.
  End Norm.
End GainData.
