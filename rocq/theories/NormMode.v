(** Output modes of normalize, real parts of complex results, empty delays, and which
    norms are accepted. *)
From Verif Require Import Base Kernels PairSpec KernelProofs PairLemmas CoreModel CoreProofs CoreProofs3 NormModel NormSpec
  FftModel CorrModel CorrSpec CorrProofs CorrProofs2 NormProofs NormProofs2 NormApi NormAuto NormMap NormApi2.
From Coq Require Import String Field ZifyBool ZifyNat.
Open Scope string_scope.
Open Scope nat_scope.
Local Notation length := List.length.
Set Implicit Arguments.

(** A function applied to every value of a result. *)
Definition on_result {A B} (f : A -> B) (r : res (list (fval A))) : res (list (fval B)) :=
  let* l := r in Ok (map (fv_map f) l).

Lemma on_result_bind {A B X} (f : A -> B) (x : res X) k : on_result f (bind x k) = bind x (fun a => on_result f (k a)).
Proof. destruct x; reflexivity. Qed.

Section Mode.
  Variable K : Fld.
  Notation C := (Cx K).
  Variable V : Type.
  Variable O : NormOps K V.
  Variable denoise : list (fval V) -> list (fval V).
  Local Notation "2" := (fadd K (f1 K) (f1 K)).
  (** -2 x + 2 u *)
  Definition flip (u : K) (x : V) : V := op_shift O (op_scal O (fopp K 2) x) (fmul K u 2).
  Definition unflip (u : K) (x : V) : V := op_shift O (op_scal O (fopp K (fdiv K (f1 K) 2)) x) u.
  Hypothesis flip_unflip : forall u x, flip u (unflip u x) = x.
  Hypothesis flip_over : forall v x, v <> f0 K -> op_over O (flip v x) v = flip (f1 K) (op_over O x v).
  Hypothesis flip_weighted : forall u x y w, op_weighted O (flip u x) (flip u y) w = flip u (op_weighted O x y w).
  Hypothesis flip_weight : forall u x d, u <> f0 K -> op_weight_d O (op_over O (flip u x) u) d = op_weight_g O (op_over O x u) d.

  Lemma to_diff r var v : scale_factor K var = Ok v -> _corr2diff O r var = Ok (map (fv_map (flip v)) r).
  Proof. intros E. unfold _corr2diff. rewrite E. reflexivity. Qed.
  Lemma to_corr r var v : scale_factor K var = Ok v -> _diff2corr O r var = Ok (map (fv_map (unflip v)) r).
  Proof. intros E. unfold _diff2corr. rewrite E. reflexivity. Qed.

  Lemma map_flip_unflip u (r : list (fval V)) : map (fv_map (flip u)) (map (fv_map (unflip u)) r) = r.
  Proof.
    rewrite map_map. rewrite <- (map_id r) at 2. apply map_ext. intros [x|]; [|reflexivity]. cbn. rewrite flip_unflip. reflexivity.
  Qed.

  Lemma formula_mode (data : cdata K V) bg1 bg2 var v z : scale_factor K var = Ok v ->
    normalize_formula O data bg1 bg2 var z "diff" = on_result (flip v) (normalize_formula O data bg1 bg2 var z "corr").
  Proof.
    intros E. unfold normalize_formula. cbn [String.eqb Ascii.eqb Bool.eqb].
    assert (T1 : forall x : res (list (fval V)), (let* r := x in _corr2diff O r var) = on_result (flip v) (let* r := x in Ok r)).
    { intros [x|]; [|reflexivity]. cbn [bind]. rewrite (to_diff _ _ E). reflexivity. }
    assert (T2 : forall x : res (list (fval V)), (let* r := x in Ok r) = on_result (flip v) (let* r := x in _diff2corr O r var)).
    { intros [x|]; [|reflexivity]. cbn [bind]. rewrite (to_corr _ _ E). unfold on_result. cbn [bind]. rewrite map_flip_unflip. reflexivity. }
    destruct data as [d count sq s1 s2|d count s1 s2|]; [| |reflexivity].
    - destruct (z =? 1)%Z; [apply T1|].
      destruct (z =? 2)%Z; [rewrite !on_result_bind; destruct (scale_factor K var); [|reflexivity]; cbn [bind];
        rewrite on_result_bind; destruct (need sq); [|reflexivity]; cbn [bind]; apply T1|].
      destruct ((z =? 5) || (z =? 13))%Z; [rewrite !on_result_bind; destruct (need s1); [|reflexivity]; cbn [bind]; apply T1|].
      destruct (z =? 9)%Z; [rewrite !on_result_bind; destruct (need s1); [|reflexivity]; cbn [bind]; apply T1|].
      destruct ((z =? 6) || (z =? 14))%Z;
        [rewrite !on_result_bind; destruct (scale_factor K var); [|reflexivity]; cbn [bind];
         rewrite on_result_bind; destruct (need s1); [|reflexivity]; cbn [bind];
         rewrite on_result_bind; destruct (need sq); [|reflexivity]; cbn [bind]; apply T1|].
      destruct (z =? 10)%Z;
        [rewrite !on_result_bind; destruct (scale_factor K var); [|reflexivity]; cbn [bind];
         rewrite on_result_bind; destruct (need s1); [|reflexivity]; cbn [bind];
         rewrite on_result_bind; destruct (need sq); [|reflexivity]; cbn [bind]; apply T1|].
      reflexivity.
    - destruct (z =? 2)%Z; [rewrite !on_result_bind; destruct (need (op_cdiff_1 O)); [|reflexivity]; cbn [bind]; apply T2|].
      destruct ((z =? 6) || (z =? 14))%Z;
        [rewrite !on_result_bind; destruct (need (op_cdiff_3 O)); [|reflexivity]; cbn [bind];
         rewrite on_result_bind; destruct (need s1); [|reflexivity]; cbn [bind];
         rewrite on_result_bind; destruct (need s2); [|reflexivity]; cbn [bind]; apply T2|].
      reflexivity.
  Qed.

  Lemma weighted_flip u x y w :
    weighted_sum O (map (fv_map (flip u)) x) (map (fv_map (flip u)) y) w = map (fv_map (flip u)) (weighted_sum O x y w).
  Proof.
    unfold weighted_sum. rewrite map_map. revert y w. induction x as [|a x IH]; intros y w; [reflexivity|].
    destruct y as [|b y]; [reflexivity|]. destruct w as [|c w]; [reflexivity|]. cbn [map combine]. rewrite IH. f_equal.
    destruct a as [a|]; [|reflexivity]. destruct b as [b|]; [|reflexivity]. destruct c as [c|]; [|reflexivity].
    cbn. rewrite flip_weighted. reflexivity.
  Qed.

  (** The unit of the difference: the variance, or one if results are scaled. *)
  Definition unit_of (scale : bool) (v : K) : K := if scale then f1 K else v.
  Lemma body_mode rec rec' data bg var v norm scale w :
    scale_factor K var = Ok v -> v <> f0 K ->
    (w = None -> forall u l, denoise (map (fv_map (flip u)) l) = map (fv_map (flip u)) (denoise l)) ->
    (forall z, rec' z = on_result (flip (unit_of scale v)) (rec z)) ->
    normalize_body O denoise rec' data bg var norm "diff" scale w =
    on_result (flip (unit_of scale v)) (normalize_body O denoise rec data bg var norm "corr" scale w).
  Proof.
    intros E Hv HD HR. unfold normalize_body. rewrite ?on_result_bind. destruct (_method_from_data data); [|reflexivity]. cbn [bind].
    rewrite ?on_result_bind. cbn [_inspect_mode String.eqb Ascii.eqb Bool.eqb orb bind].
    rewrite ?on_result_bind. match goal with |- bind ?x _ = bind ?x _ => destruct x as [norm0|e]; [|reflexivity] end. cbn [bind].
    rewrite ?on_result_bind. match goal with |- bind ?x _ = bind ?x _ => destruct x as [z|e]; [|reflexivity] end. cbn [bind].
    rewrite ?on_result_bind. rewrite E. cbn [bind].
    match goal with |- bind ?x _ = bind ?x _ => assert (ES : x = Ok (if scale then v else f1 K)) by (destruct scale; reflexivity); rewrite ES end. cbn [bind].
    rewrite ?on_result_bind. match goal with |- bind ?x _ = bind ?x _ => destruct x as [[b1 b2]|e]; [|reflexivity] end. cbn [bind].
    destruct (Z.land z NORM_WEIGHTED =? NORM_WEIGHTED)%Z.
    - rewrite ?on_result_bind, HR. destruct (rec (Z.lor _ NORM_STRUCTURED)) as [comp|]; [|reflexivity]. cbn [on_result bind].
      rewrite ?on_result_bind, HR. destruct (rec (Z.lor _ NORM_STANDARD)) as [base|]; [|reflexivity]. cbn [on_result bind].
      set (u := unit_of scale v).
      assert (EU : (if scale then Ok (f1 K) else Ok v) = Ok u) by (destruct scale; reflexivity).
      rewrite EU. cbn [bind]. assert (Hu : u <> f0 K).
      { unfold u, unit_of. destruct scale; [|exact Hv]. intros X. exact (F_1_neq_0 (flaw K) X). }
      rewrite ?on_result_bind.
      assert (EW : forall x d, (w = None -> weight_from_data O denoise (map (fv_map (flip u)) x) d u "diff" = weight_from_data O denoise x d u "corr")).
      { intros x d Hw. unfold weight_from_data. cbn [String.eqb Ascii.eqb Bool.eqb]. rewrite HD by exact Hw. rewrite map_map.
        f_equal. apply map_ext. intros [aa|]; [|reflexivity]. cbn. rewrite flip_weight by exact Hu. reflexivity. }
      destruct w as [w|].
      + cbn [bind]. rewrite weighted_flip. reflexivity.
      + rewrite EW by reflexivity. destruct (weight_from_data O denoise base _ u "corr") as [w1|]; [|reflexivity]. cbn [bind].
        rewrite weighted_flip, EW by reflexivity. destruct (weight_from_data O denoise _ _ u "corr") as [w2|]; [|reflexivity]. cbn [bind].
        rewrite weighted_flip, EW by reflexivity. destruct (weight_from_data O denoise _ _ u "corr") as [w3|]; [|reflexivity]. cbn [bind].
        rewrite weighted_flip. reflexivity.
    - rewrite ?on_result_bind. rewrite (@formula_mode data b1 b2 var v z E). destruct (normalize_formula O data b1 b2 var z "corr") as [r|]; [|reflexivity].
      cbn [on_result bind]. f_equal. destruct scale; [|reflexivity]. rewrite !map_map. apply map_ext. intros [aa|]; [|reflexivity].
      cbn. rewrite flip_over by exact Hv. reflexivity.
  Qed.
  Theorem normalize_mode data bg var v norm scale w :
    scale_factor K var = Ok v -> v <> f0 K ->
    (w = None -> forall u l, denoise (map (fv_map (flip u)) l) = map (fv_map (flip u)) (denoise l)) ->
    normalize O denoise data bg var norm "diff" scale w =
    on_result (flip (unit_of scale v)) (normalize O denoise data bg var norm "corr" scale w).
  Proof.
    intros E Hv HD. unfold normalize. apply body_mode; auto. intros z.
    (** the inner calls are never weighted, so the smoothing is irrelevant there *)
    clear HD. unfold normalize_body.
    rewrite ?on_result_bind. destruct (_method_from_data data); [|reflexivity]. cbn [bind].
    rewrite ?on_result_bind. cbn [_inspect_mode String.eqb Ascii.eqb Bool.eqb orb bind].
    rewrite ?on_result_bind. match goal with |- bind ?x _ = bind ?x _ => destruct x as [z'|e]; [|reflexivity] end. cbn [bind].
    rewrite ?on_result_bind. rewrite E. cbn [bind].
    match goal with |- bind ?x _ = bind ?x _ => assert (ES : x = Ok (if scale then v else f1 K)) by (destruct scale; reflexivity); rewrite ES end. cbn [bind].
    rewrite ?on_result_bind. match goal with |- bind ?x _ = bind ?x _ => destruct x as [[b1 b2]|e]; [|reflexivity] end. cbn [bind].
    destruct (Z.land z' NORM_WEIGHTED =? NORM_WEIGHTED)%Z; [reflexivity|].
    rewrite ?on_result_bind. rewrite (@formula_mode data b1 b2 var v z' E). destruct (normalize_formula O data b1 b2 var z' "corr") as [r|]; [|reflexivity].
    cbn [on_result bind]. f_equal. destruct scale; [|reflexivity]. rewrite !map_map. apply map_ext. intros [aa|]; [|reflexivity].
    cbn. rewrite flip_over by exact Hv. reflexivity.
  Qed.
  (** Without scaling and for a norm that is not weighted, any variance will do. *)
  Theorem normalize_mode_unweighted data bg var v norm w z :
    scale_factor K var = Ok v ->
    _default_norm_from_data data norm = Ok z -> (Z.land z 3 <> 3)%Z ->
    normalize O denoise data bg var (option_map NInt norm) "diff" false w =
    on_result (flip v) (normalize O denoise data bg var (option_map NInt norm) "corr" false w).
  Proof.
    intros E HD HW. unfold normalize, normalize_body.
    rewrite ?on_result_bind. destruct (_method_from_data data); [|reflexivity]. cbn [bind].
    rewrite ?on_result_bind. cbn [_inspect_mode String.eqb Ascii.eqb Bool.eqb orb bind].
    match goal with |- bind ?x _ = _ => assert (EN : x = Ok norm) by (destruct norm; reflexivity); rewrite EN; clear EN end. cbn [bind].
    rewrite ?on_result_bind. rewrite HD. cbn [bind].
    rewrite ?on_result_bind. destruct (_inspect_background bg z) as [[b1 b2]|]; [|reflexivity]. cbn [bind].
    change NORM_WEIGHTED with 3%Z. replace (Z.land z 3 =? 3)%Z with false by (symmetry; apply Z.eqb_neq; exact HW).
    rewrite ?on_result_bind. rewrite (@formula_mode data b1 b2 var v z E). destruct (normalize_formula O data b1 b2 var z "corr") as [r|]; reflexivity.
  Qed.
End Mode.

Section Instances.
  Variable K : Fld.
  Notation C := (Cx K).
  Add Field Kfx : (flaw K).
  Local Notation "2" := (fadd K (f1 K) (f1 K)).
  Ltac rg := match goal with |- @eq _ ?a ?b => change (@eq (fcar K) a b) end; ring.

  (** 2 (u - x) *)
  Definition twice_minus (u x : K) : K := fmul K 2 (fsub K u x).
  Definition twice_minus_c (u : K) (x : C) : C := cscal 2 (csub (cofre u) x).
  Lemma flip_real u x : flip (@real_ops K) u x = twice_minus u x.
  Proof. unfold flip, twice_minus. cbn. rg. Qed.
  Lemma flip_complex u x : flip (@complex_ops K) u x = twice_minus_c u x.
  Proof. unfold flip, twice_minus_c. cbn. unfold cscal, csub, cofre, cre, cim. cbn [fst snd]. f_equal; rg. Qed.
  Lemma real_flip_unflip u x : flip (@real_ops K) u (unflip (@real_ops K) u x) = x.
  Proof. unfold flip, unflip. cbn. match goal with |- @eq _ ?a ?b => change (@eq (fcar K) a b) end. field. apply two_neq0. Qed.
  Lemma complex_flip_unflip u x : flip (@complex_ops K) u (unflip (@complex_ops K) u x) = x.
  Proof.
    unfold flip, unflip. cbn. unfold cscal, cre, cim. destruct x as [a b]. cbn [fst snd].
    f_equal; match goal with |- @eq _ ?a ?b => change (@eq (fcar K) a b) end; field; apply two_neq0.
  Qed.
  Lemma real_flip_over v x : v <> f0 K -> op_over (@real_ops K) (flip (@real_ops K) v x) v = flip (@real_ops K) (f1 K) (op_over (@real_ops K) x v).
  Proof. intros H. unfold flip. cbn. match goal with |- @eq _ ?a ?b => change (@eq (fcar K) a b) end. field. exact H. Qed.
  Lemma complex_flip_over v x : v <> f0 K -> op_over (@complex_ops K) (flip (@complex_ops K) v x) v = flip (@complex_ops K) (f1 K) (op_over (@complex_ops K) x v).
  Proof.
    intros H. unfold flip. cbn. unfold cscal, cre, cim. cbn [fst snd].
    f_equal; match goal with |- @eq _ ?a ?b => change (@eq (fcar K) a b) end; field; exact H.
  Qed.
  Lemma real_flip_weighted u x y w : op_weighted (@real_ops K) (flip (@real_ops K) u x) (flip (@real_ops K) u y) w = flip (@real_ops K) u (op_weighted (@real_ops K) x y w).
  Proof. unfold flip. cbn. unfold _weighted_sum_real. rg. Qed.
  Lemma complex_flip_weighted u x y w : op_weighted (@complex_ops K) (flip (@complex_ops K) u x) (flip (@complex_ops K) u y) w = flip (@complex_ops K) u (op_weighted (@complex_ops K) x y w).
  Proof. unfold flip. cbn. unfold _weighted_sum_complex, cscal, cre, cim. cbn [fst snd]. f_equal; rg. Qed.
  Lemma real_flip_weight u x d : u <> f0 K ->
    op_weight_d (@real_ops K) (op_over (@real_ops K) (flip (@real_ops K) u x) u) d = op_weight_g (@real_ops K) (op_over (@real_ops K) x u) d.
  Proof.
    intros H. unfold flip. cbn. unfold weight_from_d_real. f_equal.
    match goal with |- @eq _ ?a ?b => change (@eq (fcar K) a b) end. pose proof (@two_neq0 K). field. auto.
  Qed.
  Lemma complex_flip_weight u x d : u <> f0 K ->
    op_weight_d (@complex_ops K) (op_over (@complex_ops K) (flip (@complex_ops K) u x) u) d = op_weight_g (@complex_ops K) (op_over (@complex_ops K) x u) d.
  Proof.
    intros H. unfold flip. cbn. unfold weight_from_d_complex. f_equal. unfold cscal, cre, cim. cbn [fst snd]. pose proof (@two_neq0 K).
    f_equal; match goal with |- @eq _ ?a ?b => change (@eq (fcar K) a b) end; field; auto.
  Qed.

  Lemma on_result_ext {A B} (f g : A -> B) r : (forall x, f x = g x) -> on_result f r = on_result g r.
  Proof. intros H. destruct r as [l|]; [|reflexivity]. cbn. f_equal. apply map_ext. intros [aa|]; cbn; [rewrite H|]; reflexivity. Qed.
End Instances.
