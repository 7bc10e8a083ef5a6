(** The weighted norms as combinations of unweighted ones, and the scale option. *)
From Verif Require Import Base Kernels PairSpec NormModel NormSpec NormProofs2 NormMode NormMode2 NormMode3.
From Coq Require Import String Ascii Field.
Open Scope string_scope.
Open Scope nat_scope.
Local Notation length := List.length.
Set Implicit Arguments.

Section Weighted.
  Variable K : Fld.
  Notation C := (Cx K).
  Variable V : Type.
  Variable O : NormOps K V.
  Variable dn : list (fval V) -> list (fval V).

  Lemma body_unweighted dn' rec rec' (data : cdata K V) bg var z mode scale w w' : (Z.land z 3 <> 3)%Z ->
    normalize_body O dn rec data bg var (Some (NInt z)) mode scale w = normalize_body O dn' rec' data bg var (Some (NInt z)) mode scale w'.
  Proof.
    intros H. unfold normalize_body. destruct (_method_from_data data); [|reflexivity]. cbn [bind].
    destruct (_inspect_mode mode); [|reflexivity]. cbn [bind].
    destruct (_default_norm_from_data data (Some z)) as [z'|] eqn:E; [|reflexivity]. cbn [bind].
    assert (z' = z).
    { revert E. rewrite default_norm_spec. destruct (supports data z); [|discriminate]. intros E. injection E as ->. reflexivity. }
    subst z'. destruct (if scale then _ else _) as [sf|]; [|reflexivity]. cbn [bind].
    destruct (_inspect_background bg z) as [[b1 b2]|]; [|reflexivity]. cbn [bind].
    apply Z.eqb_neq in H. change NORM_WEIGHTED with 3%Z. rewrite H. reflexivity.
  Qed.

  (** A weighted norm is the weighted sum of the STRUCTURED and the STANDARD one. *)
  Lemma weighted_is_sum data bg var z mode scale w v : In z [3; 7; 11; 15]%Z -> scale_factor K var = Ok v ->
    supports data z = true -> bg <> SNone -> (mode = "corr" \/ mode = "diff") ->
    normalize O dn data bg var (Some (NInt z)) mode scale (Some w) =
    (let* x := normalize O dn data bg var (Some (NInt (z - 1)%Z)) mode scale None in
     let* y := normalize O dn data bg var (Some (NInt (z - 2)%Z)) mode scale None in
     Ok (weighted_sum O x y w)).
  Proof.
    intros HZ HV HS HB HM.
    assert (R : forall z', (Z.land z' 3 <> 3)%Z -> normalize O dn data bg var (Some (NInt z')) mode scale None =
      normalize_body O dn (fun _ => Raise ValueError) data bg var (Some (NInt z')) mode scale None).
    { intros z' H. unfold normalize. apply body_unweighted. exact H. }
    rewrite R by (cbn in HZ; decompose [or] HZ; try contradiction; subst z; discriminate).
    rewrite R by (cbn in HZ; decompose [or] HZ; try contradiction; subst z; discriminate). clear R.
    unfold normalize. unfold normalize_body at 1.
    assert (E0 : exists s, _method_from_data data = Ok s).
    { destruct data; [eexists; reflexivity|eexists; reflexivity|discriminate]. }
    destruct E0 as [s ->]. cbn [bind].
    assert (EM : _inspect_mode mode = Ok mode) by (destruct HM as [->| ->]; reflexivity). rewrite EM. cbn [bind].
    rewrite default_norm_spec, HS. cbn [bind]. rewrite HV. cbn [bind].
    assert (EX : exists x, (if scale then Ok v else Ok (f1 K)) = Ok x) by (destruct scale; eexists; reflexivity). destruct EX as [sf ->]. cbn [bind].
    assert (EB : exists b, _inspect_background bg z = Ok b) by (destruct bg; [contradiction|eexists; reflexivity|eexists; reflexivity]).
    destruct EB as [[b1 b2] ->]. cbn [bind].
    assert (EX : exists x, (if scale then Ok (f1 K) else Ok v) = Ok x) by (destruct scale; eexists; reflexivity). destruct EX as [sf' ->]. 
    cbn in HZ; decompose [or] HZ; try contradiction; subst z; cbn [Z.sub Z.land]; reflexivity.
  Qed.

  Hypothesis over_weighted : forall v x y w, v <> f0 K ->
    op_weighted O (op_over O x v) (op_over O y v) w = op_over O (op_weighted O x y w) v.
  Hypothesis over_one : forall x, op_over O x (f1 K) = x.

  Lemma sum_over v x y w : v <> f0 K ->
    weighted_sum O (map (fv_map (fun x => op_over O x v)) x) (map (fv_map (fun x => op_over O x v)) y) w =
    map (fv_map (fun x => op_over O x v)) (weighted_sum O x y w).
  Proof.
    intros Hv. unfold weighted_sum. rewrite map_map. revert y w. induction x as [|a x IH]; intros y w; [reflexivity|].
    destruct y as [|b y]; [reflexivity|]. destruct w as [|c w]; [reflexivity|]. cbn [map combine]. rewrite IH. f_equal.
    destruct a as [a|]; [|reflexivity]. destruct b as [b|]; [|reflexivity]. destruct c as [c|]; [|reflexivity].
    cbn. rewrite over_weighted by exact Hv. reflexivity.
  Qed.
  Lemma body_scale rec rec' data bg var v norm mode w :
    scale_factor K var = Ok v -> v <> f0 K ->
    (w = None -> var = SOne v /\ forall u l, dn (map (fv_map (fun x => op_over O x u)) l) = map (fv_map (fun x => op_over O x u)) (dn l)) ->
    (forall z, rec' z = on_result (fun x => op_over O x v) (rec z)) ->
    normalize_body O dn rec' data bg var norm mode true w =
    on_result (fun x => op_over O x v) (normalize_body O dn rec data bg var norm mode false w).
  Proof.
    intros E Hv HD HR. unfold normalize_body. rewrite ?on_result_bind. destruct (_method_from_data data); [|reflexivity]. cbn [bind].
    rewrite ?on_result_bind. match goal with |- bind ?x _ = bind ?x _ => destruct x as [m|e]; [|reflexivity] end. cbn [bind].
    rewrite ?on_result_bind. match goal with |- bind ?x _ = bind ?x _ => destruct x as [norm0|e]; [|reflexivity] end. cbn [bind].
    rewrite ?on_result_bind. match goal with |- bind ?x _ = bind ?x _ => destruct x as [z|e]; [|reflexivity] end. cbn [bind].
    rewrite ?on_result_bind. rewrite E. cbn [bind].
    rewrite ?on_result_bind. match goal with |- bind ?x _ = bind ?x _ => destruct x as [[b1 b2]|e]; [|reflexivity] end. cbn [bind].
    destruct (Z.land z NORM_WEIGHTED =? NORM_WEIGHTED)%Z.
    - rewrite ?on_result_bind, HR. destruct (rec (Z.lor _ NORM_STRUCTURED)) as [comp|]; [|reflexivity]. cbn [on_result bind].
      rewrite ?on_result_bind, HR. destruct (rec (Z.lor _ NORM_STANDARD)) as [base|]; [|reflexivity]. cbn [on_result bind].
      destruct w as [w|]; cbn [bind]; [rewrite sum_over by exact Hv; reflexivity|].
      destruct (HD eq_refl) as [-> HC]. cbn [noise_delta].
      assert (EW : forall x, weight_from_data O dn (map (fv_map (fun x => op_over O x v)) x) (f0 K) (f1 K) m = weight_from_data O dn x (f0 K) v m).
      { intros x. unfold weight_from_data. rewrite HC.
        destruct (String.eqb m "corr"); [|destruct (String.eqb m "diff"); [|reflexivity]];
          rewrite map_map; f_equal; apply map_ext; intros [?|]; try reflexivity; cbn; rewrite over_one; reflexivity. }
      rewrite EW. rewrite ?on_result_bind. destruct (weight_from_data O dn base (f0 K) v m) as [w1|]; [|reflexivity]. cbn [bind].
      rewrite sum_over by exact Hv. rewrite EW. rewrite ?on_result_bind. destruct (weight_from_data O dn _ (f0 K) v m) as [w2|]; [|reflexivity]. cbn [bind].
      rewrite sum_over by exact Hv. rewrite EW. rewrite ?on_result_bind. destruct (weight_from_data O dn _ (f0 K) v m) as [w3|]; [|reflexivity]. cbn [bind on_result].
      rewrite sum_over by exact Hv. reflexivity.
    - rewrite ?on_result_bind. destruct (normalize_formula O data b1 b2 var z m) as [r|]; reflexivity.
  Qed.
  Lemma normalize_scale data bg var v norm mode w :
    scale_factor K var = Ok v -> v <> f0 K ->
    (w = None -> var = SOne v /\ forall u l, dn (map (fv_map (fun x => op_over O x u)) l) = map (fv_map (fun x => op_over O x u)) (dn l)) ->
    normalize O dn data bg var norm mode true w = on_result (fun x => op_over O x v) (normalize O dn data bg var norm mode false w).
  Proof.
    intros E Hv HD. unfold normalize. apply body_scale; auto. intros z.
    destruct (Z.eq_dec (Z.land z 3) 3) as [HZ|HZ].
    - clear HD. unfold normalize_body. rewrite ?on_result_bind. destruct (_method_from_data data); [|reflexivity]. cbn [bind].
      rewrite ?on_result_bind. match goal with |- bind ?x _ = bind ?x _ => destruct x as [m|e]; [|reflexivity] end. cbn [bind].
      rewrite ?on_result_bind. destruct (_default_norm_from_data data (Some z)) as [z'|] eqn:E'; [|reflexivity]. cbn [bind].
      assert (z' = z).
      { revert E'. rewrite default_norm_spec. destruct (supports data z); [|discriminate]. intros E'. injection E' as ->. reflexivity. }
      subst z'. rewrite ?on_result_bind, E. cbn [bind].
      rewrite ?on_result_bind. match goal with |- bind ?x _ = bind ?x _ => destruct x as [[b1 b2]|e]; [|reflexivity] end. cbn [bind].
      change NORM_WEIGHTED with 3%Z. rewrite HZ. reflexivity.
    - rewrite (@body_unweighted (fun l => l) (fun _ => Raise ValueError) (fun _ => Raise ValueError) data bg var z mode true None (Some []) HZ).
      rewrite (@body_unweighted (fun l => l) (fun _ => Raise ValueError) (fun _ => Raise ValueError) data bg var z mode false None (Some []) HZ).
      clear HD. unfold normalize_body. rewrite ?on_result_bind. destruct (_method_from_data data); [|reflexivity]. cbn [bind].
      rewrite ?on_result_bind. match goal with |- bind ?x _ = bind ?x _ => destruct x as [m|e]; [|reflexivity] end. cbn [bind].
      rewrite ?on_result_bind. destruct (_default_norm_from_data data (Some z)) as [z'|] eqn:E'; [|reflexivity]. cbn [bind].
      assert (z' = z).
      { revert E'. rewrite default_norm_spec. destruct (supports data z); [|discriminate]. intros E'. injection E' as ->. reflexivity. }
      subst z'. rewrite ?on_result_bind, E. cbn [bind].
      rewrite ?on_result_bind. match goal with |- bind ?x _ = bind ?x _ => destruct x as [[b1 b2]|e]; [|reflexivity] end. cbn [bind].
      change NORM_WEIGHTED with 3%Z. apply Z.eqb_neq in HZ. rewrite HZ.
      rewrite ?on_result_bind. destruct (normalize_formula O data b1 b2 var z m) as [r|]; reflexivity.
  Qed.
End Weighted.

Section Instances.
  Variable K : Fld.
  Notation C := (Cx K).
  Add Field Kfz : (flaw K).
  Lemma real_over_weighted (v x y w : K) : v <> f0 K ->
    op_weighted (@real_ops K) (op_over (@real_ops K) x v) (op_over (@real_ops K) y v) w = op_over (@real_ops K) (op_weighted (@real_ops K) x y w) v.
  Proof. intros H. cbn. unfold _weighted_sum_real. match goal with |- @eq _ ?a ?b => change (@eq (fcar K) a b) end. field. exact H. Qed.
  Lemma real_over_one (x : K) : op_over (@real_ops K) x (f1 K) = x.
  Proof. cbn. field. apply (F_1_neq_0 (flaw K)). Qed.
  Lemma complex_over_weighted (v : K) (x y w : C) : v <> f0 K ->
    op_weighted (@complex_ops K) (op_over (@complex_ops K) x v) (op_over (@complex_ops K) y v) w = op_over (@complex_ops K) (op_weighted (@complex_ops K) x y w) v.
  Proof.
    intros H. cbn. unfold _weighted_sum_complex, cre, cim. cbn [fst snd].
    f_equal; match goal with |- @eq _ ?a ?b => change (@eq (fcar K) a b) end; field; exact H.
  Qed.
  Lemma complex_over_one (x : C) : op_over (@complex_ops K) x (f1 K) = x.
  Proof. destruct x as [a b]. cbn. f_equal; match goal with |- @eq _ ?a ?b => change (@eq (fcar K) a b) end; field; apply (F_1_neq_0 (flaw K)). Qed.
End Instances.
