(** Sums over chunks. *)
From Verif Require Import Base Kernels PairSpec KernelProofs PairLemmas RegularProofs CoreModel CorrModel CoreProofs3 NormModel CoreProofs CoreProofs2 CoreApi CorrProofs CorrProofs2 PairAcc PairTuple CallPairs StreamSpec.
From Coq Require Import String ZifyBool ZifyNat.
Open Scope string_scope.
Open Scope nat_scope.
Open Scope list_scope.
Local Notation length := List.length.
Set Implicit Arguments.

(** ** The pairs of equal chunks *)
Section Index.
  Variable M : CMon.
  Variable h : nat.
  Hypothesis Hh : 0 < h.
  Variable q : nat * nat -> bool.
  Variable g : nat * nat -> M.
  Notation ix c := (seq 0 (c * h)).
  Notation chunk k := (seq (k * h) h).
  Notation same_chunk := (fun p : nat * nat => (fst p / h =? snd p / h)%nat).

  Lemma index_step c : ix (S c) = ix c ++ chunk c.
  Proof. replace (S c * h) with (c * h + h) by lia. rewrite seq_app. reflexivity. Qed.
  Lemma index_div c a : In a (ix c) -> a / h < c.
  Proof. intros H. apply in_seq in H. apply Nat.div_lt_upper_bound; lia. Qed.
  Lemma chunk_div c a : In a (chunk c) -> a / h = c.
  Proof. intros H. apply in_seq in H. symmetry. apply (Nat.div_unique a h c (a - c * h)); lia. Qed.

  Lemma Sum_prod_app A B (a a' : list A) (b b' : list B) (f : A * B -> M) :
    Sum M (list_prod (a ++ a') (b ++ b')) f = madd M (madd M (Sum M (list_prod a b) f) (Sum M (list_prod a b') f)) (madd M (Sum M (list_prod a' b) f) (Sum M (list_prod a' b') f)).
  Proof.
    rewrite !Sum_list_prod, Sum_app. f_equal; rewrite <- Sum_madd; apply Sum_ext; intros x _; apply Sum_app.
  Qed.
  Lemma chunk_pairs c : Sum M (flat_map (fun k => filter q (list_prod (chunk k) (chunk k))) (seq 0 c)) g =
    Sum M (filter (fun p => same_chunk p && q p)%bool (list_prod (ix c) (ix c))) g.
  Proof.
    induction c as [|c IH]; [reflexivity|]. rewrite seq_S, flat_map_app, Sum_app, IH. cbn [flat_map Nat.add]. rewrite app_nil_r.
    rewrite index_step, !Sum_filter, Sum_prod_app.
    match goal with |- _ = madd M (madd M ?a ?b) (madd M ?c ?d) => replace b with (m0 M); [replace c with (m0 M); [|symmetry]|symmetry] end.
    - rewrite madd_0_r, madd_0_l. f_equal. apply Sum_ext. intros p Hp. destruct p as [x y]. apply in_prod_iff in Hp.
      cbn [fst snd]. rewrite (chunk_div _ _ (proj1 Hp)), (chunk_div _ _ (proj2 Hp)), Nat.eqb_refl. reflexivity.
    - apply Sum_zero. intros [x y] Hp. apply in_prod_iff in Hp. destruct Hp as [Hx Hy]. apply index_div in Hy. apply chunk_div in Hx. cbn [fst snd].
      replace (x / h =? y / h)%nat with false by lia. reflexivity.
    - apply Sum_zero. intros [x y] Hp. apply in_prod_iff in Hp. destruct Hp as [Hx Hy]. apply index_div in Hx. apply chunk_div in Hy. cbn [fst snd].
      replace (x / h =? y / h)%nat with false by lia. reflexivity.
  Qed.
  Lemma chunk_upairs c : Sum M (flat_map (fun k => filter q (upairs (chunk k))) (seq 0 c)) g =
    Sum M (filter (fun p => same_chunk p && q p)%bool (upairs (ix c))) g.
  Proof.
    induction c as [|c IH]; [reflexivity|]. rewrite seq_S, flat_map_app, Sum_app, IH. cbn [flat_map Nat.add]. rewrite app_nil_r.
    rewrite index_step, !Sum_filter, Sum_upairs_app.
    match goal with |- _ = madd M (madd M ?a ?b) ?c => replace c with (m0 M); [|symmetry] end.
    - rewrite madd_0_r. f_equal. apply Sum_ext. intros p Hp. destruct p as [x y]. apply in_upairs, in_prod_iff in Hp.
      cbn [fst snd]. rewrite (chunk_div _ _ (proj1 Hp)), (chunk_div _ _ (proj2 Hp)), Nat.eqb_refl. reflexivity.
    - apply Sum_zero. intros [x y] Hp. apply in_prod_iff in Hp. destruct Hp as [Hx Hy]. apply index_div in Hx. apply chunk_div in Hy. cbn [fst snd].
      replace (x / h =? y / h)%nat with false by lia. reflexivity.
  Qed.
End Index.

Lemma filter_map A B (f : A -> B) p l : filter p (map f l) = map f (filter (fun x => p (f x)) l).
Proof. induction l as [|x l IH]; [reflexivity|]. cbn. rewrite IH. destruct (p (f x)); reflexivity. Qed.
Lemma upairs_map A B (f : A -> B) l : upairs (map f l) = map (map_pair f f) (upairs l).
Proof. induction l as [|x l IH]; [reflexivity|]. cbn [upairs map]. rewrite IH, map_app, !map_map. cbn [map]. rewrite !map_map. reflexivity. Qed.
Lemma sel_length A (s1 s2 : nat -> A) tau1 tau2 q a n b m : length (sel q (ser s1 tau1 a n) (ser s2 tau2 b m)) =
  length (filter (fun p => q (tau2 (snd p) - tau1 (fst p))%Z) (list_prod (seq a n) (seq b m))).
Proof. unfold sel, ser. rewrite list_prod_map, filter_map, map_length. reflexivity. Qed.
Lemma usel_length A (s : nat -> A) tau q a n : length (usel q (ser s tau a n)) =
  length (filter (fun p => q (tau (snd p) - tau (fst p))%Z) (upairs (seq a n))).
Proof. unfold usel, ser. rewrite upairs_map, filter_map, map_length. reflexivity. Qed.
Lemma flat_map_length A B (f : A -> list B) l : length (flat_map f l) = Sum natmon l (fun x => length (f x)).
Proof. induction l as [|x l IH]; [reflexivity|]. cbn [flat_map]. rewrite app_length, IH, Sum_cons. reflexivity. Qed.
Lemma length_nat A (l : list A) : length l = Sum natmon l (fun _ => 1).
Proof. symmetry. apply Sum_nat_1. Qed.
Theorem sel_chunks A (s1 s2 : nat -> A) tau1 tau2 q h c : 0 < h ->
  length (flat_map (fun k => sel q (ser s1 tau1 (k * h) h) (ser s2 tau2 (k * h) h)) (seq 0 c)) =
  length (filter (fun p => (fst p / h =? snd p / h)%nat && q (tau2 (snd p) - tau1 (fst p))%Z)%bool (list_prod (seq 0 (c * h)) (seq 0 (c * h)))).
Proof.
  intros Hh. rewrite (length_nat (filter _ _)), <- (chunk_pairs natmon Hh (fun p => q (tau2 (snd p) - tau1 (fst p))%Z) (fun _ => 1)).
  rewrite <- length_nat, !flat_map_length. apply Sum_ext. intros k _. apply sel_length.
Qed.
Theorem usel_chunks A (s : nat -> A) tau q h c : 0 < h ->
  length (flat_map (fun k => usel q (ser s tau (k * h) h)) (seq 0 c)) =
  length (filter (fun p => (fst p / h =? snd p / h)%nat && q (tau (snd p) - tau (fst p))%Z)%bool (upairs (seq 0 (c * h)))).
Proof.
  intros Hh. rewrite (length_nat (filter _ _)), <- (chunk_upairs natmon Hh (fun p => q (tau (snd p) - tau (fst p))%Z) (fun _ => 1)).
  rewrite <- length_nat, !flat_map_length. apply Sum_ext. intros k _. apply usel_length.
Qed.

(** ** Sums of tuples *)
Section Tuples.
  Variable K : Fld.
  Notation C := (Cx K).
  Variable V : CMon.
  Variable prod : sample C * sample C -> V.
  Variables g1 g2 : sample C * sample C -> C.
  Variables (diff cross : bool) (nm : Z) (L : nat).
  Notation zeros := (zeros K V diff cross nm L).
  Notation tuple := (add_pairs prod g1 g2 zeros).

  Lemma plus_cells_zero (M : CMon) f f' : plus_lists M (plus_cells M (repeat (m0 M) L) f) (plus_cells M (repeat (m0 M) L) f') = plus_cells M (repeat (m0 M) L) (fun i => madd M (f i) (f' i)).
  Proof.
    apply list_nth_ext with (d := m0 M); unfold plus_lists.
    - rewrite map_length, combine_length, !plus_cells_length, repeat_length. lia.
    - rewrite map_length, combine_length, !plus_cells_length, repeat_length. intros i Hi.
      rewrite (nth_indep _ (m0 M) (madd M (fst (m0 M, m0 M)) (snd (m0 M, m0 M)))) by (rewrite map_length, combine_length, !plus_cells_length, repeat_length; exact Hi).
      rewrite (map_nth (fun p => madd M (fst p) (snd p))), combine_nth by (rewrite !plus_cells_length; reflexivity). cbn [fst snd].
      rewrite !nth_plus_cells by (rewrite repeat_length; lia). rewrite nth_repeat, !madd_0_l. reflexivity.
  Qed.
  Lemma tuple_plus P P' : plus_data V (tuple P) (tuple P') = tuple (fun i => P i ++ P' i).
  Proof.
    assert (E : forall A (M : CMon) (f : A -> M) (Q Q' : nat -> list A), plus_lists M (plus_cells M (repeat (m0 M) L) (fun i => Sum M (Q i) f)) (plus_cells M (repeat (m0 M) L) (fun i => Sum M (Q' i) f)) =
      plus_cells M (repeat (m0 M) L) (fun i => Sum M (Q i ++ Q' i) f)).
    { intros A M f Q Q'. rewrite plus_cells_zero. apply plus_cells_eq. intros i. symmetry. apply Sum_app. }
    assert (EN : plus_lists natmon (plus_cells natmon (repeat 0 L) (fun i => length (P i))) (plus_cells natmon (repeat 0 L) (fun i => length (P' i))) =
      plus_cells natmon (repeat 0 L) (fun i => length (P i ++ P' i))).
    { etransitivity; [exact (plus_cells_zero natmon (fun i => length (P i)) (fun i => length (P' i)))|]. apply plus_cells_eq. intros i. symmetry. apply app_length. }
    unfold CallPairs.zeros. destruct diff, cross, (has_flag nm NORM_SUBTRACTED), (has_flag nm NORM_STRUCTURED); cbn [add_pairs plus_data option_map plus_opt];
      rewrite ?E; try rewrite EN; try (rewrite (E _ (cmon K))); try reflexivity; f_equal; try exact EN; try (f_equal; apply E); apply E.
  Qed.
  Lemma tuple_sum (P : nat -> nat -> list (sample (C * K) * sample (C * K))) c : 0 < c ->
    sum_data V (map (fun k => tuple (P k)) (seq 0 c)) = tuple (fun i => flat_map (fun k => P k i) (seq 0 c)).
  Proof.
    intros Hc. destruct c as [|c]; [lia|]. clear Hc. cbn [seq map sum_data].
    assert (H : forall l Q, fold_left (@plus_data K V) (map (fun k => tuple (P k)) l) (tuple Q) = tuple (fun i => Q i ++ flat_map (fun k => P k i) l)).
    { induction l as [|k l IH]; intros Q; cbn [map fold_left flat_map].
      - assert (EQ : forall i, Q i = Q i ++ []) by (intros; rewrite app_nil_r; reflexivity).
        unfold add_pairs. destruct zeros as [v cc sq s1 s2|v cc s1 s2|]; [| |reflexivity];
        f_equal; try (apply plus_cells_eq; intros i; rewrite <- EQ; reflexivity);
        match goal with |- option_map _ ?s = _ => destruct s; [|reflexivity]; cbn [option_map]; f_equal; apply plus_cells_eq; intros i; rewrite <- EQ; reflexivity end.
      - rewrite tuple_plus, IH. 
        unfold add_pairs. destruct zeros as [v cc sq s1 s2|v cc s1 s2|]; [| |reflexivity];
        f_equal; try (apply plus_cells_eq; intros i; rewrite <- app_assoc; reflexivity);
        match goal with |- option_map _ ?s = _ => destruct s; [|reflexivity]; cbn [option_map]; f_equal; apply plus_cells_eq; intros i; rewrite <- app_assoc; reflexivity end. }
    apply H.
  Qed.
  Lemma tuple_count P i : i < L -> nth i (data_count V (tuple P)) 0 = length (P i).
  Proof.
    intros Hi. unfold CallPairs.zeros. destruct diff; cbn [add_pairs data_count];
      (etransitivity; [exact (@nth_plus_cells natmon (repeat 0 L) _ i ltac:(rewrite repeat_length; exact Hi))|]; cbn; rewrite nth_repeat; reflexivity).
  Qed.
End Tuples.
