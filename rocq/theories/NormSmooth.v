(** Smoothing in normalize: if every delay has pairs, only the smoothing of finite data matters. *)
From Verif Require Import Base Kernels PairSpec KernelProofs NormModel NormMode NormMode2.
From Coq Require Import String Ascii.
Open Scope string_scope.
Open Scope nat_scope.
Local Notation length := List.length.
Set Implicit Arguments.

Definition all_fin {A} (l : list (fval A)) : Prop := exists x, l = map Fin x.
Fixpoint finite {A} (l : list (fval A)) : bool := match l with [] => true | Fin _ :: l => finite l | NonFin :: _ => false end.
Lemma finite_spec {A} (l : list (fval A)) : finite l = true <-> all_fin l.
Proof.
  split.
  - induction l as [|[a|] l IH]; intros H; [exists []; reflexivity| |discriminate]. destruct (IH H) as [x ->]. exists (a :: x). reflexivity.
  - intros [x ->]. induction x; [reflexivity|assumption].
Qed.
Lemma all_fin_map {A B} (f : A -> B) l : all_fin l -> all_fin (map (fv_map f) l).
Proof. intros [x ->]. exists (map f x). rewrite !map_map. apply map_ext. reflexivity. Qed.
Lemma all_fin_cells {A} n (f : nat -> fval A) : (forall i, i < n -> f i <> NonFin) -> all_fin (map f (seq 0 n)).
Proof.
  intros H. apply finite_spec. assert (G : forall l, (forall i, In i l -> f i <> NonFin) -> finite (map f l) = true).
  { induction l as [|i l IH]; intros Hl; [reflexivity|]. cbn. destruct (f i) eqn:E; [apply IH; intros; apply Hl; right; assumption|].
    exfalso. apply (Hl i); [left; reflexivity|exact E]. }
  apply G. intros i Hi. apply in_seq in Hi. apply H. lia.
Qed.
Lemma finite_map {A B} (f : A -> B) l : finite (map (fv_map f) l) = finite l.
Proof. induction l as [|[a|] l IH]; [reflexivity|exact IH|reflexivity]. Qed.

Section Smooth.
  Variable K : Fld.
  Notation C := (Cx K).
  Variable V : Type.
  Variable O : NormOps K V.
  Variables dn dn' : list (fval V) -> list (fval V).
  Variable N : nat.
  (** every formula of [O] is finite for a positive count *)
  Record finite_law : Prop := {
    fl1 : forall d c b1 b2, c <> 0 -> op_corr_baseline O d c b1 b2 <> NonFin;
    fl2 : forall d c b1 b2 v q, c <> 0 -> op_struct_baseline O d c b1 b2 v q <> NonFin;
    fl3 : forall d c m1 m2, c <> 0 -> op_corr_compensated O d c m1 m2 <> NonFin;
    fl4 : forall d c v q m1 m2, c <> 0 -> op_struct_compensated O d c v q m1 m2 <> NonFin;
    fl5 : forall d c b1 b2 m1 m2, c <> 0 -> op_corr_subtracted O d c b1 b2 m1 m2 <> NonFin;
    fl6 : forall d c b1 b2 v q m1 m2, c <> 0 -> op_struct_subtracted O d c b1 b2 v q m1 m2 <> NonFin;
    fl7 : forall f, op_cdiff_1 O = Some f -> forall d c x, c <> 0 -> f d c x <> NonFin;
    fl8 : forall f, op_cdiff_3 O = Some f -> forall d c x m1 m2, c <> 0 -> f d c x m1 m2 <> NonFin }.
  Hypothesis FL : finite_law.

  Definition good (l : list (fval V)) : Prop := all_fin l /\ length l = N.
  Hypothesis agree : forall l, good l -> dn l = dn' l /\ good (dn l).

  Definition good_res (r : res (list (fval V))) : Prop := forall l, r = Ok l -> good l.
  Lemma good_bind X (x : res X) k : (forall a, x = Ok a -> good_res (k a)) -> good_res (bind x k).
  Proof. intros H. destruct x as [a|]; [exact (H a eq_refl)|]. intros l E. discriminate. Qed.
  Lemma good_map g (r : list (fval V)) : good r -> good (map (fv_map g) r).
  Proof. intros [H1 H2]. split; [apply all_fin_map; exact H1|rewrite map_length; exact H2]. Qed.
  Definition good_data (data : cdata K V) : Prop := length (counts data) = N /\ forall i, i < N -> nth i (counts data) 0 <> 0.
  Lemma good_cells (c : list nat) lens n f : length c = N -> (forall i, i < N -> f i <> NonFin) -> good_res (cells (length c :: lens) n f).
  Proof.
    intros HN H l E. unfold cells in E. destruct (forallb _ _) eqn:F; [|discriminate]. injection E as <-.
    cbn in F. apply andb_prop in F. destruct F as [F _]. apply Nat.eqb_eq in F. subst n. rewrite HN. split.
    - apply all_fin_cells. exact H.
    - rewrite map_length, seq_length. reflexivity.
  Qed.
  Lemma good_mode (b : bool) r var : good_res r ->
    good_res (let* r := r in if b then _corr2diff O r var else Ok r) /\
    good_res (let* r := r in if b then _diff2corr O r var else Ok r).
  Proof.
    intros H. split; apply good_bind; intros a Ha; specialize (H a Ha); destruct b; try (intros l E; injection E as <-; exact H);
      apply good_bind; intros v _ l E; injection E as <-; apply good_map; exact H.
  Qed.
  Lemma formula_good data b1 b2 var z mode : good_data data -> good_res (normalize_formula O data b1 b2 var z mode).
  Proof.
    intros [HN HZ]. unfold normalize_formula. destruct data as [d c sq s1 s2|d c s1 s2|]; cbn [counts] in HN, HZ.
    - destruct (z =? 1)%Z; [apply good_mode, good_cells; [exact HN|]; intros i Hi; apply (fl1 FL); exact (HZ i Hi)|].
      destruct (z =? 2)%Z; [apply good_bind; intros v _; apply good_bind; intros sq' _; apply good_mode, good_cells; [exact HN|]; intros i Hi; apply (fl2 FL); exact (HZ i Hi)|].
      destruct ((z =? 5) || (z =? 13))%Z; [apply good_bind; intros [m1 m2] _; apply good_mode, good_cells; [exact HN|]; intros i Hi; apply (fl5 FL); exact (HZ i Hi)|].
      destruct (z =? 9)%Z; [apply good_bind; intros [m1 m2] _; apply good_mode, good_cells; [exact HN|]; intros i Hi; apply (fl3 FL); exact (HZ i Hi)|].
      destruct ((z =? 6) || (z =? 14))%Z; [apply good_bind; intros v _; apply good_bind; intros [m1 m2] _; apply good_bind; intros sq' _; apply good_mode, good_cells; [exact HN|]; intros i Hi; apply (fl6 FL); exact (HZ i Hi)|].
      destruct (z =? 10)%Z; [apply good_bind; intros v _; apply good_bind; intros [m1 m2] _; apply good_bind; intros sq' _; apply good_mode, good_cells; [exact HN|]; intros i Hi; apply (fl4 FL); exact (HZ i Hi)|].
      intros l E. discriminate.
    - destruct (z =? 2)%Z.
      { apply good_bind; intros op Hop. destruct (op_cdiff_1 O) as [g|] eqn:E1; [|discriminate]. injection Hop as <-.
        apply good_mode, good_cells; [exact HN|]. intros i Hi. apply (fl7 FL E1). exact (HZ i Hi). }
      destruct ((z =? 6) || (z =? 14))%Z.
      { apply good_bind; intros op Hop. destruct (op_cdiff_3 O) as [g|] eqn:E1; [|discriminate]. injection Hop as <-.
        apply good_bind; intros m1 _. apply good_bind; intros m2 _.
        apply good_mode, good_cells; [exact HN|]. intros i Hi. apply (fl8 FL E1). exact (HZ i Hi). }
      intros l E. discriminate.
    - intros l E. discriminate.
  Qed.
  Lemma good_weighted x y w : good x -> good y -> good w -> good (weighted_sum O x y w).
  Proof.
    intros [[x' ->] Hx] [[y' ->] Hy] [[w' ->] Hw]. rewrite map_length in Hx, Hy, Hw. split.
    - apply finite_spec. unfold weighted_sum. clear Hx Hy Hw. revert y' w'. induction x' as [|a x' IH]; intros [|b y'] [|c w']; cbn; auto.
    - unfold weighted_sum. rewrite map_length, !combine_length, !map_length. lia.
  Qed.
  Lemma weight_agree x delta sf mode : good x -> weight_from_data O dn x delta sf mode = weight_from_data O dn' x delta sf mode /\
    good_res (weight_from_data O dn x delta sf mode).
  Proof.
    intros H. destruct (agree H) as [E G]. unfold weight_from_data. rewrite <- E. split; [reflexivity|].
    destruct (mode =? "corr")%string; [intros l El; injection El as <-; apply good_map; exact G|].
    destruct (mode =? "diff")%string; [intros l El; injection El as <-; apply good_map; exact G|]. intros l El. discriminate.
  Qed.
  Lemma inner data bg var z mode scale : good_data data ->
    normalize_body O dn (fun _ => Raise ValueError) data bg var (Some (NInt z)) mode scale None =
    normalize_body O dn' (fun _ => Raise ValueError) data bg var (Some (NInt z)) mode scale None /\
    good_res (normalize_body O dn (fun _ => Raise ValueError) data bg var (Some (NInt z)) mode scale None).
  Proof.
    intros HD. split.
    - unfold normalize_body. destruct (_method_from_data data); [|reflexivity]. cbn [bind]. destruct (_inspect_mode mode); [|reflexivity]. cbn [bind].
      destruct (_default_norm_from_data data _); [|reflexivity]. cbn [bind].
      match goal with |- bind ?x _ = bind ?x _ => destruct x; [|reflexivity] end. cbn [bind].
      match goal with |- bind ?x _ = bind ?x _ => destruct x as [[b1 b2]|]; [|reflexivity] end. cbn [bind].
      destruct (Z.land a1 NORM_WEIGHTED =? NORM_WEIGHTED)%Z; reflexivity.
    - unfold normalize_body. apply good_bind; intros _ _. apply good_bind; intros m _. apply good_bind; intros nz _. apply good_bind; intros z' _.
      apply good_bind; intros sf _. apply good_bind; intros [b1 b2] _. destruct (Z.land z' NORM_WEIGHTED =? NORM_WEIGHTED)%Z; [intros l E; discriminate|].
      apply good_bind; intros r Er. apply formula_good in Er; [|exact HD]. destruct scale; intros l E; injection E as <-; [apply good_map|]; exact Er.
  Qed.
  Theorem normalize_agree data bg var norm mode scale w : good_data data ->
    normalize O dn data bg var norm mode scale w = normalize O dn' data bg var norm mode scale w.
  Proof.
    intros HD. unfold normalize. unfold normalize_body at 1 3.
    destruct (_method_from_data data); [|reflexivity]. cbn [bind]. destruct (_inspect_mode mode) as [m|]; [|reflexivity]. cbn [bind].
    match goal with |- bind ?x _ = bind ?x _ => destruct x as [nz|]; [|reflexivity] end. cbn [bind].
    destruct (_default_norm_from_data data _) as [z|]; [|reflexivity]. cbn [bind].
    match goal with |- bind ?x _ = bind ?x _ => destruct x; [|reflexivity] end. cbn [bind].
    match goal with |- bind ?x _ = bind ?x _ => destruct x as [[b1 b2]|]; [|reflexivity] end. cbn [bind].
    destruct (Z.land z NORM_WEIGHTED =? NORM_WEIGHTED)%Z; [|reflexivity].
    assert (I1 := fun z => @inner data bg var z mode scale HD).
    rewrite <- (proj1 (I1 (Z.lor (Z.land z (Z.lor NORM_SUBTRACTED NORM_COMPENSATED)) NORM_STRUCTURED))).
    rewrite <- (proj1 (I1 (Z.lor (Z.land z (Z.lor NORM_SUBTRACTED NORM_COMPENSATED)) NORM_STANDARD))).
    match goal with |- bind ?x _ = _ => destruct x as [comp|] eqn:Ec; [|reflexivity] end. cbn [bind].
    match goal with |- bind ?x _ = _ => destruct x as [base|] eqn:Eb; [|reflexivity] end. cbn [bind].
    apply (proj2 (I1 _)) in Ec. apply (proj2 (I1 _)) in Eb.
    match goal with |- bind ?x _ = bind ?x _ => destruct x as [sf|]; [|reflexivity] end. cbn [bind].
    destruct w as [w|]; [reflexivity|].
    destruct (@weight_agree base (noise_delta K var scale) sf m Eb) as [E1 G1]. rewrite <- E1. destruct (weight_from_data O dn base _ _ _) as [w1|]; [|reflexivity]. cbn [bind].
    specialize (G1 w1 eq_refl).
    destruct (@weight_agree (weighted_sum O comp base w1) (noise_delta K var scale) sf m (good_weighted Ec Eb G1)) as [E2 G2]. rewrite <- E2.
    destruct (weight_from_data O dn (weighted_sum O comp base w1) _ _ _) as [w2|]; [|reflexivity]. cbn [bind]. specialize (G2 w2 eq_refl).
    destruct (@weight_agree (weighted_sum O comp base w2) (noise_delta K var scale) sf m (good_weighted Ec Eb G2)) as [E3 _]. rewrite <- E3. reflexivity.
  Qed.
End Smooth.

Lemma real_finite_law K : finite_law (@real_ops K).
Proof.
  constructor; cbn; intros;
    repeat match goal with H : Some _ = Some _ |- _ => injection H as <- end;
    destruct c as [|c]; try (exfalso; auto; fail); discriminate.
Qed.
Lemma complex_finite_law K : finite_law (@complex_ops K).
Proof.
  constructor; cbn; intros; try discriminate; destruct c as [|c]; try (exfalso; auto; fail); discriminate.
Qed.
