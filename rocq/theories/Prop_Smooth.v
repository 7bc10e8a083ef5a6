(** C22 and C67 with weights computed from smoothed data: the smoothing is the denoise of avg.py. *)
From Verif Require Import Base Ordered AvgModel AvgProofs AvgProofs2 Kernels PairSpec NormModel NormMode NormMode2 NormMode3 NormApi3 NormSmooth WeightApi Examples Prop_Norm1.
From Coq Require Import String Ascii Field.
Open Scope string_scope.
Open Scope nat_scope.
Local Notation length := List.length.
Set Implicit Arguments.

(** [dn] smooths finite data of more than two delays as avg.denoise does (norm.py 287 and 299), whatever
    the new arrays contain; it may do anything with other data. *)
Definition smooths (K : OFld) (dn : list (fval K) -> list (fval K)) : Prop :=
  forall (x : list K), 2 < length x -> exists junk r, denoise K junk 3 x = Ok r /\ dn (map Fin x) = map Fin r.
(** Complex data: the real and the imaginary parts are smoothed separately (_core_nb.py 160-169, 70-77). *)
Definition smooths_complex (K : OFld) (dn : list (fval (Cx K)) -> list (fval (Cx K))) : Prop :=
  forall (x : list (Cx K)), 2 < length x -> exists junk r i, denoise K junk 3 (map cre x) = Ok r /\ denoise K junk 3 (map cim x) = Ok i /\
    dn (map Fin x) = map Fin (combine r i).
(** Correlation or difference data with [N] delays, each with at least one pair *)
Definition all_delays_occur (K : Fld) V (data : cdata K V) (N : nat) : Prop :=
  length (counts data) = N /\ forall i, i < N -> nth i (counts data) 0 <> 0.

Section Lemmas.
  Variable K : OFld.
  Notation C := (Cx K).
  Add Field Ksm : (flaw K).
  (** [dn] on finite data, the identity otherwise *)
  Definition only {V} (dn : list (fval V) -> list (fval V)) (l : list (fval V)) : list (fval V) :=
    if finite l && (2 <? length l) then dn l else l.
  Lemma smooths_ok dn (x : list K) : smooths K dn -> 2 < length x -> dn (map Fin x) = map Fin (passes K 3 x).
  Proof. intros H Hx. destruct (H x Hx) as (junk & r & E & ->). rewrite denoise_ok in E by exact Hx. injection E as <-. reflexivity. Qed.
  Lemma smooths_complex_ok dn (x : list C) : smooths_complex K dn -> 2 < length x ->
    dn (map Fin x) = map Fin (combine (passes K 3 (map cre x)) (passes K 3 (map cim x))).
  Proof.
    intros H Hx. destruct (H x Hx) as (junk & r & i & E1 & E2 & ->).
    rewrite denoise_ok in E1 by (rewrite map_length; exact Hx). rewrite denoise_ok in E2 by (rewrite map_length; exact Hx). injection E1 as <-. injection E2 as <-. reflexivity.
  Qed.
  Lemma only_agree N dn : smooths K dn -> 2 < N -> forall l : list (fval K), good N l -> dn l = only dn l /\ good N (dn l).
  Proof.
    intros H HN l [[x ->] Hl]. unfold only. rewrite (proj2 (finite_spec (map Fin x))) by (exists x; reflexivity).
    replace (2 <? length (map Fin x)) with true by (symmetry; apply Nat.ltb_lt; lia). rewrite map_length in Hl. split; [reflexivity|].
    rewrite smooths_ok by (assumption || lia). split; [eexists; reflexivity|]. rewrite map_length, passes_length. exact Hl.
  Qed.
  Lemma only_agree_complex N dn : smooths_complex K dn -> 2 < N -> forall l : list (fval C), good N l -> dn l = only dn l /\ good N (dn l).
  Proof.
    intros H HN l [[x ->] Hl]. unfold only. rewrite (proj2 (finite_spec (map Fin x))) by (exists x; reflexivity).
    replace (2 <? length (map Fin x)) with true by (symmetry; apply Nat.ltb_lt; lia). rewrite map_length in Hl. split; [reflexivity|].
    rewrite smooths_complex_ok by (assumption || lia). split; [eexists; reflexivity|].
    rewrite map_length, combine_length, !passes_length, !map_length, Nat.min_id. exact Hl.
  Qed.
  (** commutes with affine maps *)
  Lemma only_affine dn (f : K -> K) u v : smooths K dn -> (forall x, f x = fadd K (fmul K u x) v) ->
    forall l, only dn (map (fv_map f) l) = map (fv_map f) (only dn l).
  Proof.
    intros H Hf l. unfold only. rewrite finite_map, map_length. destruct (finite l) eqn:F; [|reflexivity]. cbn [andb].
    destruct (2 <? length l) eqn:E; [|reflexivity]. apply Nat.ltb_lt in E. apply finite_spec in F. destruct F as [x ->]. rewrite map_length in E.
    assert (M : forall x : list K, map (fv_map f) (map Fin x) = map Fin (map (fun y => fadd K (fmul K u y) v) x)).
    { intros y. rewrite !map_map. apply map_ext. intros a. cbn. rewrite Hf. reflexivity. }
    rewrite M, !smooths_ok by (rewrite ?map_length; assumption). rewrite passes_affine, M. reflexivity.
  Qed.
  Lemma only_affine_complex dn (f : C -> C) u v w : smooths_complex K dn -> (forall x, f x = (fadd K (fmul K u (cre x)) v, fadd K (fmul K u (cim x)) w)) ->
    forall l, only dn (map (fv_map f) l) = map (fv_map f) (only dn l).
  Proof.
    intros H Hf l. unfold only. rewrite finite_map, map_length. destruct (finite l) eqn:F; [|reflexivity]. cbn [andb].
    destruct (2 <? length l) eqn:E; [|reflexivity]. apply Nat.ltb_lt in E. apply finite_spec in F. destruct F as [x ->]. rewrite map_length in E.
    assert (M : forall x : list C, map (fv_map f) (map Fin x) = map Fin (map f x)) by (intros y; rewrite !map_map; reflexivity).
    rewrite M, !smooths_complex_ok by (rewrite ?map_length; assumption).
    assert (R : map cre (map f x) = map (fun y => fadd K (fmul K u y) v) (map cre x)) by (rewrite !map_map; apply map_ext; intros a; rewrite Hf; reflexivity).
    assert (I : map cim (map f x) = map (fun y => fadd K (fmul K u y) w) (map cim x)) by (rewrite !map_map; apply map_ext; intros a; rewrite Hf; reflexivity).
    rewrite R, I, !passes_affine, M. f_equal.
    assert (L : length (passes K 3 (map cre x)) = length (passes K 3 (map cim x))) by (rewrite !passes_length, !map_length; reflexivity).
    revert L. generalize (passes K 3 (map cre x)) (passes K 3 (map cim x)). clear - Hf. induction l as [|a l IH]; intros [|b m] L; try discriminate; [reflexivity|].
    cbn. rewrite IH by (injection L; auto). rewrite Hf. reflexivity.
  Qed.
  Lemma twice_affine u x : twice_minus K u x = fadd K (fmul K (fopp K (fadd K (f1 K) (f1 K))) x) (fmul K (fadd K (f1 K) (f1 K)) u).
  Proof. unfold twice_minus. change (@eq (fcar K) (fmul K (fadd K (f1 K) (f1 K)) (fsub K u x)) (fadd K (fmul K (fopp K (fadd K (f1 K) (f1 K))) x) (fmul K (fadd K (f1 K) (f1 K)) u))). ring. Qed.
  Lemma over_affine (u x : K) : fdiv K x u = fadd K (fmul K (finv K u) x) (f0 K).
  Proof. rewrite (Fdiv_def (flaw K)). change (@eq (fcar K) (fmul K x (finv K u)) (fadd K (fmul K (finv K u) x) (f0 K))). ring. Qed.
  Lemma twice_affine_c u (x : C) : twice_minus_c u x =
    (fadd K (fmul K (fopp K (fadd K (f1 K) (f1 K))) (cre x)) (fmul K (fadd K (f1 K) (f1 K)) u), fadd K (fmul K (fopp K (fadd K (f1 K) (f1 K))) (cim x)) (f0 K)).
  Proof. unfold twice_minus_c, cscal, csub, cofre. destruct x as [a b]. unfold cre, cim. cbn [fst snd]. f_equal; match goal with |- ?l = ?r => change (@eq (fcar K) l r) end; ring. Qed.
End Lemmas.

(** Mode "diff" is 2 (u - corr) for every norm, also if the weight is computed. *)
Theorem C22_modes_smoothed (K : OFld) dn (data : cdata K K) N bg var v norm scale w :
  scale_factor K var = Ok v -> v <> f0 K -> smooths K dn -> all_delays_occur data N -> 2 < N ->
  normalize real_ops dn data bg var norm "diff" scale w =
  on_result (twice_minus K (if scale then f1 K else v)) (normalize real_ops dn data bg var norm "corr" scale w).
Proof.
  intros E Hv HS HD HN.
  rewrite !(@normalize_agree K K real_ops dn (only dn) N (real_finite_law K) (@only_agree K N dn HS HN) data bg var norm _ scale w HD).
  apply modes_real; [exact E|exact Hv|]. intros _ u. exact (@only_affine K dn _ _ _ HS (fun x => twice_affine K u x)).
Qed.
Print Assumptions C22_modes_smoothed.
Theorem C22_modes_smoothed_complex (K : OFld) dn (data : cdata K (Cx K)) N bg var v norm scale w :
  scale_factor K var = Ok v -> v <> f0 K -> smooths_complex K dn -> all_delays_occur data N -> 2 < N ->
  normalize complex_ops dn data bg var norm "diff" scale w =
  on_result (@twice_minus_c K (if scale then f1 K else v)) (normalize complex_ops dn data bg var norm "corr" scale w).
Proof.
  intros E Hv HS HD HN.
  rewrite !(@normalize_agree K (Cx K) complex_ops dn (only dn) N (complex_finite_law K) (@only_agree_complex K N dn HS HN) data bg var norm _ scale w HD).
  apply modes_complex; [exact E|exact Hv|]. intros _ u. exact (@only_affine_complex K dn _ _ _ _ HS (fun x => twice_affine_c K u x)).
Qed.
Print Assumptions C22_modes_smoothed_complex.
(** Scaled results are the unscaled ones divided by the variance, also if the weight is computed, for a single variance. *)
Theorem C67_scale_smoothed (K : OFld) dn (data : cdata K K) N bg v norm mode w :
  v <> f0 K -> smooths K dn -> all_delays_occur data N -> 2 < N ->
  normalize real_ops dn data bg (SOne v) norm mode true w =
  on_result (fun x => fdiv K x v) (normalize real_ops dn data bg (SOne v) norm mode false w).
Proof.
  intros Hv HS HD HN.
  rewrite !(@normalize_agree K K real_ops dn (only dn) N (real_finite_law K) (@only_agree K N dn HS HN) data bg (SOne v) norm mode _ w HD).
  apply (@normalize_scale K K real_ops (only dn) (@real_over_weighted K) (@real_over_one K) data bg (SOne v) v norm mode w eq_refl Hv).
  intros _. split; [reflexivity|]. intros u. exact (@only_affine K dn _ _ _ HS (fun x => over_affine K u x)).
Qed.
Print Assumptions C67_scale_smoothed.
Theorem C67_scale_smoothed_complex (K : OFld) dn (data : cdata K (Cx K)) N bg v norm mode w :
  v <> f0 K -> smooths_complex K dn -> all_delays_occur data N -> 2 < N ->
  normalize complex_ops dn data bg (SOne v) norm mode true w =
  on_result (fun x => (fdiv K (cre x) v, fdiv K (cim x) v)) (normalize complex_ops dn data bg (SOne v) norm mode false w).
Proof.
  intros Hv HS HD HN.
  rewrite !(@normalize_agree K (Cx K) complex_ops dn (only dn) N (complex_finite_law K) (@only_agree_complex K N dn HS HN) data bg (SOne v) norm mode _ w HD).
  apply (@normalize_scale K (Cx K) complex_ops (only dn) (@complex_over_weighted K) (@complex_over_one K) data bg (SOne v) v norm mode w eq_refl Hv).
  intros _. split; [reflexivity|]. intros u. apply (@only_affine_complex K dn _ (finv K u) (f0 K) (f0 K) HS). intros x. cbn. rewrite !over_affine. reflexivity.
Qed.
Print Assumptions C67_scale_smoothed_complex.
(** What the variance argument means: one number, or the mean of two. *)
Theorem C67_variance (K : Fld) var v : scale_factor K var = Ok v <->
  (var = SOne v \/ exists v1 v2, var = STwo v1 v2 /\ v = fdiv K (fadd K v1 v2) (fadd K (f1 K) (f1 K))).
Proof.
  split.
  - destruct var as [|a|a b]; cbn; intros E; [discriminate| |]; injection E as <-; [left; reflexivity|right; exists a, b; split; reflexivity].
  - intros [->|(a & b & -> & ->)]; reflexivity.
Qed.
Print Assumptions C67_variance.
(** The smoothing of a concrete signal, weights computed from it, both modes *)
Definition numbers (l : list (fval QcO)) : list QcO := flat_map (fun x => match x with Fin a => [a] | NonFin => [] end) l.
Definition qsmooth (l : list (fval QcO)) : list (fval QcO) :=
  if finite l then match denoise QcO (fun _ _ => q 0) 3 (numbers l) with Ok r => map Fin r | Raise _ => l end else l.
Lemma qsmooth_smooths : smooths QcO qsmooth.
Proof.
  intros x Hx. exists (fun _ _ => q 0), (passes QcO 3 x). rewrite denoise_ok by exact Hx. split; [reflexivity|]. unfold qsmooth.
  rewrite (proj2 (finite_spec (map Fin x))) by (exists x; reflexivity).
  assert (E : numbers (map Fin x) = x) by (clear; induction x as [|a x IH]; [reflexivity|]; cbn; f_equal; exact IH).
  rewrite E, denoise_ok by exact Hx. reflexivity.
Qed.
Definition sdata : cdata QcF QcF := DCorr [q 3; q 5; q 2] [1; 2; 2]%nat (Some [q 6; q 8; q 9]) None None.
Example C22_smoothed_example : all_delays_occur sdata 3 /\ smooths QcO qsmooth /\
  show_all showv (normalize real_ops qsmooth sdata (SOne (cz 1 0)) (SOne (q 4)) (Some (NInt 3%Z)) "corr" true None) =
    Ok [Some (522729, 522730); Some (13526210208133743695072531913531, 13357139416121460414598899559240); Some (0, 1)]%Z /\
  show_all showv (normalize real_ops qsmooth sdata (SOne (cz 1 0)) (SOne (q 4)) (Some (NInt 3%Z)) "diff" true None) =
    Ok [Some (1, 261365); Some (-169070792012283280473632354291, 6678569708060730207299449779620); Some (2, 1)]%Z.
Proof. split; [split; [reflexivity|intros [|[|[|i]]] Hi; [discriminate..|lia]]|]. split; [exact qsmooth_smooths|]. split; vm_compute; reflexivity. Qed.


