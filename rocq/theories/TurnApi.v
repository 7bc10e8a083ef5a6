(** Overall phases: ccorr and acorr of signals multiplied by a phase. *)
From Verif Require Import Base Kernels PairSpec KernelProofs PairLemmas CoreModel CoreProofs CoreProofs3 NormModel NormSpec
  FftModel CorrModel CorrSpec CorrProofs CorrProofs2 NormProofs NormProofs2 NormApi NormAuto NormMap NormApi2 NormMode NormMode2 NormMode3 NormApi3 TurnProofs TurnData.
From Coq Require Import String Field ZifyBool ZifyNat.
Open Scope string_scope.
Open Scope nat_scope.
Local Notation length := List.length.
Set Implicit Arguments.

Section TurnApi.
  Variable K : Fld.
  Notation C := (Cx K).
  Notation pair := (sample C * sample C)%type.
  Variable W : nat -> C.
  Variable u : C.
  Hypothesis Hu : cnorm2 u = f1 K.
  Add Field TAfield : (flaw K).
  Notation h := (map_pair (on_val (cmul u)) (on_val (cmul u))).
  Ltac ex := unfold map_pair, on_val, re_prod, cx_prod, sq_diff, CorrProofs.squares, CorrProofs.first, CorrProofs.second, cnorm2, cadd, csub, cmul, conj, cre, cim; cbn [fst snd].
  Ltac rg H := match goal with |- @eq _ ?a ?b => change (@eq (fcar K) a b) end; ring [H].

  Lemma h_re p : re_prod (h p) = re_prod p.
  Proof using Hu. pose proof (u_sq u Hu) as H. unfold cre, cim in H. ex. rg H. Qed.
  Lemma h_cx p : cx_prod (h p) = cx_prod p.
  Proof using Hu. pose proof (u_sq u Hu) as H. unfold cre, cim in H. ex. f_equal; rg H. Qed.
  Lemma h_ordered p : cx_prod_ordered (h p) = cx_prod_ordered p.
  Proof using Hu.
    unfold cx_prod_ordered. change (snd (fst (h p))) with (snd (fst p)). change (snd (snd (h p))) with (snd (snd p)). rewrite h_cx. destruct (_ <=? _)%Z; [reflexivity|].
    pose proof (u_sq u Hu) as H. unfold cre, cim in H. ex. f_equal; rg H.
  Qed.
  Lemma h_sq p : sq_diff (h p) = sq_diff p.
  Proof using Hu. pose proof (u_sq u Hu) as H. unfold cre, cim in H. ex. rg H. Qed.
  Lemma h_squares p : CorrProofs.squares (h p) = CorrProofs.squares p.
  Proof using Hu. pose proof (u_sq u Hu) as H. unfold cre, cim in H. ex. rg H. Qed.
  Lemma h_half p : halfsum (h p) = cmul u (halfsum p).
  Proof. pose proof (Kernels.two_neq0 K) as H2. unfold halfsum. cbn [ahalf cgrp]. unfold fhalf, ftwo. ex. f_equal; match goal with |- @eq _ ?a ?b => change (@eq (fcar K) a b) end; field; exact H2. Qed.

  Lemma turn_sum A (l : list A) (g : A -> C) : Sum (cmon K) l (fun x => cmul u (g x)) = cmul u (Sum (cmon K) l g).
  Proof.
    induction l as [|x l IH]; [symmetry; apply turn_zero|]. rewrite !Sum_cons, IH. cbn [madd cmon]. generalize (g x) (Sum (cmon K) l g). intros a b.
    unfold cadd, cmul, cre, cim; cbn [fst snd]. f_equal; (match goal with |- @eq _ ?a ?b => change (@eq (fcar K) a b) end; ring).
  Qed.
  Lemma nth_repeat_z k N : nth k (repeat (c0 K) N) (c0 K) = c0 K.
  Proof. destruct (nth_in_or_default k (repeat (c0 K) N) (c0 K)) as [X|X]; [apply repeat_spec in X; exact X|exact X]. Qed.
  Lemma turn_cells N (g : nat -> C) : plus_cells (cmon K) (repeat (c0 K) N) (fun i => cmul u (g i)) = map (cmul u) (plus_cells (cmon K) (repeat (c0 K) N) g).
  Proof.
    unfold plus_cells. rewrite map_map. apply map_ext. intros k.
    replace (nth k _ _) with (c0 K) by (symmetry; apply nth_repeat_z).
    generalize (g k). intros a. cbn [madd cmon]. unfold cadd, cmul, c0, cre, cim; cbn [fst snd]. f_equal; (match goal with |- @eq _ ?a ?b => change (@eq (fcar K) a b) end; ring).
  Qed.
  Lemma cells_eq (M : CMon) (l : list M) f g : (forall i, f i = g i) -> plus_cells M l f = plus_cells M l g.
  Proof. intros H. unfold plus_cells. apply map_ext. intros k. rewrite H. reflexivity. Qed.
  Lemma sum_h (M : CMon) (Q : list pair) (g g' : pair -> M) : (forall p, g (h p) = g' p) -> Sum M (map h Q) g = Sum M Q g'.
  Proof. intros H. rewrite Sum_map. apply Sum_ext. intros p _. apply H. Qed.

  Section Data.
    Variables (P P' : nat -> list pair) (N : nat) (nm : Z).
    Hypothesis HP : forall i, P' i = map h (P i).
    Lemma cnt : plus_cells natmon (repeat 0 N) (fun i => length (P' i)) = plus_cells natmon (repeat 0 N) (fun i => length (P i)).
    Proof using HP Hu. apply cells_eq. intros i. rewrite HP. apply map_length. Qed.
    Lemma sqs : plus_cells (fmon K) (repeat (f0 K) N) (fun i => Sum (fmon K) (P' i) (@CorrProofs.squares K)) = plus_cells (fmon K) (repeat (f0 K) N) (fun i => Sum (fmon K) (P i) (@CorrProofs.squares K)).
    Proof using HP Hu. apply cells_eq. intros i. rewrite HP. apply sum_h, h_squares. Qed.
    Lemma sums g : (forall p, g (h p) = cmul u (g p)) -> plus_cells (cmon K) (repeat (c0 K) N) (fun i => Sum (cmon K) (P' i) g) = map (cmul u) (plus_cells (cmon K) (repeat (c0 K) N) (fun i => Sum (cmon K) (P i) g)).
    Proof using HP Hu. intros H. rewrite <- turn_cells. apply cells_eq. intros i. rewrite HP, (@sum_h (cmon K) (P i) _ _ H). apply turn_sum. Qed.
    Lemma fst_sums : plus_cells (cmon K) (repeat (c0 K) N) (fun i => Sum (cmon K) (P' i) (@CorrProofs.first K)) = map (cmul u) (plus_cells (cmon K) (repeat (c0 K) N) (fun i => Sum (cmon K) (P i) (@CorrProofs.first K))).
    Proof using HP Hu. apply sums. reflexivity. Qed.
    Lemma snd_sums : plus_cells (cmon K) (repeat (c0 K) N) (fun i => Sum (cmon K) (P' i) (@CorrProofs.second K)) = map (cmul u) (plus_cells (cmon K) (repeat (c0 K) N) (fun i => Sum (cmon K) (P i) (@CorrProofs.second K))).
    Proof using HP Hu. apply sums. reflexivity. Qed.
    Lemma half_sums : plus_cells (cmon K) (repeat (c0 K) N) (fun i => Sum (cmon K) (P' i) (@halfsum K)) = map (cmul u) (plus_cells (cmon K) (repeat (c0 K) N) (fun i => Sum (cmon K) (P i) (@halfsum K))).
    Proof using HP Hu. apply sums. apply h_half. Qed.
    Ltac tuples := unfold corr_tuple, acorr_tuple, turn_data; cbn [start]; rewrite ?cnt, ?sqs, ?fst_sums, ?snd_sums, ?half_sums; destruct (has_flag nm NORM_STRUCTURED), (has_flag nm NORM_SUBTRACTED); reflexivity.
    Lemma real_turn : cross_real_data P' N nm = turn_data u (cross_real_data P N nm).
    Proof using HP Hu. unfold cross_real_data. rewrite (@cells_eq (fmon K) _ _ (fun i => Sum (fmon K) (P i) (@re_prod K))) by (intros; rewrite HP; apply sum_h, h_re). tuples. Qed.
    Lemma complex_turn : cross_complex_data P' N nm = turn_data u (cross_complex_data P N nm).
    Proof using HP Hu. unfold cross_complex_data. rewrite (@cells_eq (cmon K) _ _ (fun i => Sum (cmon K) (P i) (@cx_prod K))) by (intros; rewrite HP; apply sum_h, h_cx). tuples. Qed.
    Lemma diff_turn : cross_diff_data P' N nm = turn_data u (cross_diff_data P N nm).
    Proof using HP Hu. unfold cross_diff_data. rewrite (@cells_eq (fmon K) _ _ (fun i => Sum (fmon K) (P i) (@sq_diff K))) by (intros; rewrite HP; apply sum_h, h_sq). tuples. Qed.
    Lemma auto_turn : auto_real_data P' N nm = turn_data u (auto_real_data P N nm).
    Proof using HP Hu. unfold auto_real_data. rewrite (@cells_eq (fmon K) _ _ (fun i => Sum (fmon K) (P i) (@re_prod K))) by (intros; rewrite HP; apply sum_h, h_re). tuples. Qed.
    Lemma auto_complex_turn : auto_complex_data P' N nm = turn_data u (auto_complex_data P N nm).
    Proof using HP Hu. unfold auto_complex_data. rewrite (@cells_eq (cmon K) _ _ (fun i => Sum (cmon K) (P i) (@cx_prod_ordered K))) by (intros; rewrite HP; apply sum_h, h_ordered). tuples. Qed.
    Lemma auto_diff_turn : auto_diff_data P' N = turn_data u (auto_diff_data P N).
    Proof using HP Hu. unfold auto_diff_data. rewrite (@cells_eq (fmon K) _ _ (fun i => Sum (fmon K) (P i) (@sq_diff K))) by (intros; rewrite HP; apply sum_h, h_sq). unfold turn_data. rewrite cnt. reflexivity. Qed.
  End Data.
End TurnApi.
