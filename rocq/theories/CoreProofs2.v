(** Sums, counts, conservation, symmetry, auto against cross. *)
From Verif Require Import Base Kernels PairSpec KernelProofs PairLemmas RegularProofs SumProofs CoreModel CoreProofs.
From Coq Require Import ZifyBool ZifyNat.
Ltac Zify.zify_post_hook ::= Z.div_mod_to_equations.
Set Implicit Arguments.

(* ------------------------------------------------------------------ *)
(** * cross_sum *)
Section SumApi.
  Variable G : QGrp.

  Lemma sum_spec_shift B m (d1 : list (sample G)) (d2 : list (sample B)) k :
    sum_spec G (map (shift_time m) d1) (map (shift_time m) d2) k = sum_spec G d1 d2 k.
  Proof.
    unfold sum_spec. rewrite pairs_at_map by (intros; apply delay_shift). rewrite Sum_map. reflexivity.
  Qed.
  Lemma sum_signed_spec_shift B m (d1 : list (sample G)) (d2 : list (sample B)) k :
    sum_signed_spec G (map (shift_time m) d1) (map (shift_time m) d2) k = sum_signed_spec G d1 d2 k.
  Proof.
    unfold sum_signed_spec. rewrite pairs_signed_map by (intros; apply delay_shift). rewrite Sum_map. reflexivity.
  Qed.
  Lemma sum_spec_neg B (d1 : list (sample G)) (d2 : list (sample B)) k :
    sum_spec G (map neg_time d1) (map neg_time d2) k = sum_spec G d1 d2 k.
  Proof. unfold sum_spec. rewrite pairs_at_neg, Sum_map. reflexivity. Qed.
  Lemma sum_signed_spec_neg B (d1 : list (sample G)) (d2 : list (sample B)) m :
    sum_signed_spec G (map neg_time d1) (map neg_time d2) m = sum_signed_spec G d1 d2 (- m).
  Proof. unfold sum_signed_spec. rewrite pairs_signed_neg, Sum_map. reflexivity. Qed.

  Definition default_arr (aout : option (list G)) (n : nat) : list G :=
    match aout with Some o => o | None => repeat (m0 G) n end.

  Theorem cross_sum_real_aout (f : list G) t t_other n inv out :
    valid_sum f t t_other -> (t = None -> length out <= length f + 1)%nat ->
    cross_sum G f t t_other n false inv (Some out) =
    Ok (plus_cells G out (sum_spec G (samples f t) (other_times f t_other))).
  Proof.
    intros HV Hn. unfold cross_sum, _inspect_cross_arguments. simpl option_map.
    rewrite Nat.eqb_refl. cbn [negb].
    assert (E : exists N, match n with Some n0 => Ok n0 | None => Ok (length out) end = Ok N)
      by (destruct n; eexists; reflexivity).
    destruct E as [N E].
    destruct t as [t|], t_other as [t'|]; try contradiction; cbn [bind samples other_times]; rewrite E; cbn [bind].
    - destruct HV as (H1 & Hne & Hne'). unfold _shift_cross.
      destruct (@zmin_list_ok t) as [m1 E1]; [eapply nonnil_len; [exact H1|exact Hne]|].
      destruct (@zmin_list_ok t') as [m2 E2]; [exact Hne'|].
      rewrite E1, E2. cbn [bind fst snd _default_out].
      destruct inv; rewrite ?map_length;
      (replace (length f =? length t)%nat with true by (symmetry; apply Nat.eqb_eq; lia));
      f_equal; rewrite _cross_sum_spec by (rewrite ?map_length; lia);
      apply plus_cells_ext; intros k _;
      rewrite ?combine_neg, ?times_neg, ?sum_spec_neg, ?combine_shift, ?times_shift; apply sum_spec_shift.
    - cbn [_default_out]. apply _cross_sum_regular_spec. apply Hn. reflexivity.
  Qed.

  Theorem cross_sum_complex_aout (f : list G) t t_other n inv out m :
    valid_sum f t t_other -> length out = (2 * m - 1)%nat -> (0 < m)%nat ->
    (t = None -> m <= length f + 1)%nat ->
    cross_sum G f t t_other n true inv (Some out) =
    Ok (plus_cells G out (fun i => sum_signed_spec G (samples f t) (other_times f t_other)
                                     (if inv then - lag_at m i else lag_at m i)%Z)).
  Proof.
    intros HV HL Hm Hn. unfold cross_sum, _inspect_cross_arguments. simpl option_map.
    rewrite Nat.eqb_refl. cbn [negb].
    assert (E : exists N, match n with Some n0 => Ok n0 | None => Ok ((length out + 1) / 2)%nat end = Ok N)
      by (destruct n; eexists; reflexivity).
    destruct E as [N E].
    destruct t as [t|], t_other as [t'|]; try contradiction; cbn [bind samples other_times]; rewrite E; cbn [bind].
    - destruct HV as (H1 & Hne & Hne'). unfold _shift_cross.
      destruct (@zmin_list_ok t) as [m1 E1]; [eapply nonnil_len; [exact H1|exact Hne]|].
      destruct (@zmin_list_ok t') as [m2 E2]; [exact Hne'|].
      rewrite E1, E2. cbn [bind fst snd _default_out].
      destruct inv; rewrite ?map_length;
      (replace (length f =? length t)%nat with true by (symmetry; apply Nat.eqb_eq; lia));
      f_equal; rewrite (@_cross_sum_complex_spec G _ _ _ _ m) by (rewrite ?map_length; auto; lia);
      apply plus_cells_ext; intros k _;
      rewrite ?combine_neg, ?times_neg, ?sum_signed_spec_neg, ?combine_shift, ?times_shift;
      apply sum_signed_spec_shift.
    - cbn [_default_out]. destruct inv.
      + apply _cross_sum_complex_regular_inverted_spec; auto.
      + apply _cross_sum_complex_regular_spec; auto.
  Qed.

  Lemma cross_sum_fresh_arr (f : list G) t t_other n complex inv : (complex = true -> 0 < n)%nat ->
    cross_sum G f t t_other (Some n) complex inv None =
    cross_sum G f t t_other (Some n) complex inv (Some (repeat (m0 G) (if complex then 2 * n - 1 else n)%nat)).
  Proof.
    intros H0. unfold cross_sum, _inspect_cross_arguments. cbn [option_map].
    assert (E : _default_out (m0 G) None n complex =
                Ok (repeat (m0 G) (if complex then 2 * n - 1 else n)%nat)).
    { unfold _default_out. destruct complex; [|reflexivity].
      replace (n =? 0)%nat with false; [reflexivity|]. symmetry; apply Nat.eqb_neq. specialize (H0 eq_refl); lia. }
    destruct t as [t|], t_other as [t'|]; cbn [bind]; try reflexivity;
      destruct (length f =? length f)%nat; cbn [negb bind]; try reflexivity;
      try (destruct (_shift_cross _ _) as [[? ?]|]; cbn [bind]); try reflexivity;
      rewrite E; cbn [bind _default_out]; reflexivity.
  Qed.

  Theorem cross_sum_real_fresh (f : list G) t t_other n inv :
    valid_sum f t t_other -> (t = None -> n <= length f + 1)%nat ->
    cross_sum G f t t_other (Some n) false inv None =
    Ok (map (sum_spec G (samples f t) (other_times f t_other)) (seq 0 n)).
  Proof.
    intros HV Hn. rewrite cross_sum_fresh_arr by discriminate.
    rewrite cross_sum_real_aout; [|exact HV|rewrite repeat_length; exact Hn].
    f_equal. apply plus_cells_zero.
  Qed.

  Theorem cross_sum_complex_fresh (f : list G) t t_other n inv :
    valid_sum f t t_other -> (0 < n)%nat -> (t = None -> n <= length f + 1)%nat ->
    cross_sum G f t t_other (Some n) true inv None =
    Ok (map (fun i => sum_signed_spec G (samples f t) (other_times f t_other)
                                     (if inv then - lag_at n i else lag_at n i)%Z) (seq 0 (2 * n - 1))).
  Proof.
    intros HV H0 Hn. rewrite cross_sum_fresh_arr by auto.
    rewrite (@cross_sum_complex_aout f t t_other (Some n) inv _ n HV); auto; [|apply repeat_length].
    f_equal. apply plus_cells_zero.
  Qed.
End SumApi.

(* ------------------------------------------------------------------ *)
(** * Auto against cross *)

Section AutoCross.
  Variable M : CMon.

  Lemma Sum_pairs_upairs A k (d : list (sample A)) (g : sample A * sample A -> M) :
    madd M (Sum M (pairs_at k d d) g) (if (k =? 0)%nat then Sum M d (fun x => g (x, x)) else m0 M) =
    Sum M (upairs_at k d) (fun p => madd M (g p) (g (swap p))).
  Proof.
    unfold pairs_at, upairs_at. rewrite !Sum_filter.
    pose (g' := fun p : sample A * sample A => if (Z.abs (delay p) =? Z.of_nat k)%Z then g p else m0 M).
    transitivity (madd M (Sum M (list_prod d d) g') (Sum M d (fun x => g' (x, x)))).
    - f_equal. unfold g', delay. simpl. destruct (Nat.eqb_spec k 0) as [->|Hk].
      + apply Sum_ext. intros x _. replace (Z.abs (snd x - snd x) =? Z.of_nat 0)%Z with true by lia. reflexivity.
      + symmetry. apply Sum_zero. intros x _.
        replace (Z.abs (snd x - snd x) =? Z.of_nat k)%Z with false by lia. reflexivity.
    - rewrite Sum_square. apply Sum_ext. intros p _. unfold g'.
      replace (Z.abs (delay (swap p))) with (Z.abs (delay p)) by (unfold delay, swap; simpl; lia).
      destruct (_ =? _)%Z; [reflexivity|apply madd_0_l].
  Qed.

  Lemma Sum_pick A (d : list (sample A)) x (h : sample A -> M) :
    distinct d -> In x d ->
    Sum M d (fun y => if (snd y =? snd x)%Z then h y else m0 M) = h x.
  Proof.
    unfold distinct. induction d as [|y d IH]; intros HN Hx; [contradiction|].
    rewrite Sum_cons. simpl in HN. inversion HN as [|? ? Hni HN']; subst.
    destruct Hx as [->|Hx].
    - rewrite Z.eqb_refl. rewrite Sum_zero; [apply madd_0_r|].
      intros z Hz. destruct (Z.eqb_spec (snd z) (snd x)) as [E|]; [|reflexivity].
      exfalso. apply Hni. rewrite <- E. apply in_map. exact Hz.
    - destruct (Z.eqb_spec (snd y) (snd x)) as [E|].
      + exfalso. apply Hni. rewrite E. apply in_map. exact Hx.
      + rewrite madd_0_l. apply IH; assumption.
  Qed.

  Lemma Sum_pairs_at_0 A (d : list (sample A)) g : distinct d ->
    Sum M (pairs_at 0 d d) g = Sum M d (fun x => g (x, x)).
  Proof.
    intros HN. unfold pairs_at. rewrite Sum_filter, Sum_list_prod. apply Sum_ext. intros x Hx.
    rewrite <- (@Sum_pick A d x (fun y => g (x, y)) HN Hx). apply Sum_ext. intros y _.
    unfold delay; simpl. replace (Z.abs (snd y - snd x) =? 0)%Z with (snd y =? snd x)%Z by lia. reflexivity.
  Qed.

  Lemma Sum_upairs_at_0 A (d : list (sample A)) g : distinct d ->
    Sum M (upairs_at 0 d) g = Sum M d (fun x => g (x, x)).
  Proof.
    unfold distinct, upairs_at. rewrite Sum_filter. induction d as [|x d IH]; intros HN; [reflexivity|].
    simpl in HN. inversion HN as [|? ? Hni HN']; subst.
    rewrite Sum_upairs_cons, IH, Sum_cons by assumption.
    unfold delay; simpl. rewrite Z.sub_diag. simpl. f_equal.
    rewrite Sum_zero; [apply madd_0_l|].
    intros y Hy. destruct (Z.eqb_spec (Z.abs (snd y - snd x)) 0) as [E|]; [|reflexivity].
    exfalso. apply Hni. replace (snd x) with (snd y) by lia. apply in_map. exact Hy.
  Qed.

  (** The statement used for C16: at delay 0 equal, elsewhere cross = auto + auto swapped. *)
  Lemma cross_self A k (d : list (sample A)) g : distinct d -> (forall p, g (swap p) = g p) ->
    Sum M (pairs_at k d d) g =
    if (k =? 0)%nat then Sum M (upairs_at k d) g
    else madd M (Sum M (upairs_at k d) g) (Sum M (upairs_at k d) g).
  Proof.
    intros HN Hs. destruct (Nat.eqb_spec k 0) as [->|Hk].
    - rewrite Sum_pairs_at_0, Sum_upairs_at_0 by assumption. reflexivity.
    - pose proof (Sum_pairs_upairs k d g) as H.
      replace (k =? 0)%nat with false in H by lia. rewrite madd_0_r in H. rewrite H.
      rewrite <- Sum_madd. apply Sum_ext. intros p _. rewrite Hs. reflexivity.
  Qed.
End AutoCross.

Section AutoSum.
  Variable G : QGrp.

  Lemma ahalf_0 : ahalf G (m0 G) = m0 G.
  Proof. rewrite <- (madd_0_l G (m0 G)) at 1. apply ahalf_double. Qed.

  Lemma ahalf_Sum A (l : list A) f : ahalf G (Sum G l f) = Sum G l (fun x => ahalf G (f x)).
  Proof.
    induction l as [|x l IH]; [apply ahalf_0|]. rewrite !Sum_cons, ahalf_add, IH. reflexivity.
  Qed.

  (** Value of auto_sum at delay [k], with or without repeated times. *)
  Definition auto_sum_value (d : list (sample G)) (k : nat) : G :=
    if (k =? 0)%nat then Sum G (pairs_at 0 d d) (fun p => fst (fst p)) else asum_spec G (ahalf G) d k.

  Lemma auto_sum_value_distinct d k : distinct d -> auto_sum_value d k = asum_spec G (ahalf G) d k.
  Proof.
    intros HN. unfold auto_sum_value. destruct (Nat.eqb_spec k 0) as [->|]; [|reflexivity].
    unfold asum_spec. rewrite Sum_pairs_at_0, Sum_upairs_at_0 by assumption.
    apply Sum_ext. intros x _. simpl. symmetry. apply ahalf_double.
  Qed.

  Lemma sum_times_self (f : list G) t k : length f = length t ->
    sum_spec G (combine f t) (times t) k = Sum G (pairs_at k (combine f t) (combine f t)) (fun p => fst (fst p)).
  Proof.
    intros H. unfold sum_spec. rewrite (@pairs_at_times_r G G k (combine f t) f t H), Sum_map. reflexivity.
  Qed.

  Lemma half_sum d k : (0 < k)%nat ->
    ahalf G (Sum G (pairs_at k d d) (fun p : sample G * sample G => fst (fst p))) = asum_spec G (ahalf G) d k.
  Proof.
    intros Hk. pose proof (Sum_pairs_upairs G k d (fun p => fst (fst p))) as H.
    replace (k =? 0)%nat with false in H by lia. rewrite madd_0_r in H. rewrite H, ahalf_Sum. reflexivity.
  Qed.

  Lemma halve_tail_map f n :
    halve_tail G (map f (seq 0 n)) = map (fun k => if (k =? 0)%nat then f k else ahalf G (f k)) (seq 0 n).
  Proof.
    destruct n; [reflexivity|]. simpl. f_equal. rewrite map_map. apply map_ext_in. intros k Hk.
    apply in_seq in Hk. replace (k =? 0)%nat with false by lia. reflexivity.
  Qed.

  Lemma add_arrays_zip a b : add_arrays G a b = zip_add G a b.
  Proof. reflexivity. Qed.

  Theorem auto_sum_aout (f : list G) t n out :
    valid_auto f t -> (t = None -> length out <= length f + 1)%nat ->
    auto_sum G f t n (Some out) = Ok (plus_cells G out (auto_sum_value (samples f t))).
  Proof.
    intros HV Hn. unfold auto_sum, _inspect_auto_arguments. simpl option_map.
    assert (E : exists N, match n with Some n0 => Ok n0 | None => Ok (length out) end = Ok N)
      by (destruct n; eexists; reflexivity).
    destruct E as [N ->].
    destruct t as [t|]; cbn [bind samples].
    - destruct HV as (H1 & Hne).
      destruct (@zmin_list_ok t) as [m1 E1]; [eapply nonnil_len; [exact H1|exact Hne]|].
      rewrite E1. cbn [bind fst snd _default_out]. rewrite !map_length.
      replace (length f =? length t)%nat with true by (symmetry; apply Nat.eqb_eq; lia). cbn [bind].
      rewrite _cross_sum_spec by (rewrite ?map_length; lia).
      rewrite plus_cells_zero, halve_tail_map, add_arrays_zip, zip_add_map. f_equal.
      apply plus_cells_ext. intros k _. rewrite combine_shift, times_shift, sum_spec_shift, sum_times_self by lia.
      unfold auto_sum_value. destruct (Nat.eqb_spec k 0) as [->|]; [reflexivity|]. apply half_sum; lia.
    - cbn [_default_out bind]. rewrite _cross_sum_regular_spec by (rewrite repeat_length; auto). cbn [bind].
      rewrite plus_cells_zero, halve_tail_map, add_arrays_zip, zip_add_map. f_equal.
      apply plus_cells_ext. intros k _. unfold regular.
      rewrite sum_times_self by (rewrite arange_length; reflexivity).
      unfold auto_sum_value. destruct (Nat.eqb_spec k 0) as [->|]; [reflexivity|]. apply half_sum; lia.
  Qed.

  Theorem auto_sum_fresh (f : list G) t n :
    valid_auto f t -> (t = None -> n <= length f + 1)%nat ->
    auto_sum G f t (Some n) None = Ok (map (auto_sum_value (samples f t)) (seq 0 n)).
  Proof.
    intros HV Hn. transitivity (auto_sum G f t (Some n) (Some (repeat (m0 G) n))).
    - unfold auto_sum, _inspect_auto_arguments. destruct t as [t|]; cbn [bind]; [destruct (zmin_list t)|]; reflexivity.
    - rewrite auto_sum_aout; [|exact HV|rewrite repeat_length; exact Hn]. f_equal. apply plus_cells_zero.
  Qed.
End AutoSum.

Lemma regular_distinct A (f : list A) : distinct (regular f).
Proof.
  unfold distinct, regular. replace (map snd (combine f (arange (length f)))) with (arange (length f)).
  - apply FinFun.Injective_map_NoDup; [intros a b; lia|apply seq_NoDup].
  - generalize (arange (length f)), (arange_length (length f)). intros t.
    revert t; induction f as [|x f IH]; intros [|y t] H; simpl in *; try lia; [reflexivity|].
    rewrite <- IH by lia. reflexivity.
Qed.

Lemma combine_distinct A (f : list A) t : length f = length t -> NoDup t -> distinct (combine f t).
Proof.
  intros H HN. unfold distinct. replace (map snd (combine f t)) with t; [exact HN|].
  revert t H HN; induction f as [|x f IH]; intros [|y t] H HN; simpl in *; try lia; [reflexivity|].
  inversion HN; subst. rewrite <- IH by (auto; lia). reflexivity.
Qed.

(* ------------------------------------------------------------------ *)
(** * Counts *)

Definition targ_opt (t1 : targ) (t2 : option targ) : list Z :=
  match t2 with None => targ_times t1 | Some a => targ_times a end.

Theorem cross_count_real_aout t1 t2 n out :
  cross_count t1 t2 n false (Some out) =
  Ok (plus_cells natmon out (fun k => length (pairs_at k (times (targ_times t1)) (times (targ_opt t1 t2))))).
Proof. unfold cross_count. cbn [_default_count bind]. rewrite _add_count_cross_spec. reflexivity. Qed.

Theorem cross_count_complex_aout t1 t2 n out m :
  length out = (2 * m - 1)%nat -> (0 < m)%nat ->
  cross_count t1 t2 n true (Some out) =
  Ok (plus_cells natmon out (fun i => length (pairs_signed (lag_at m i) (times (targ_times t1)) (times (targ_opt t1 t2))))).
Proof. intros. unfold cross_count. cbn [_default_count bind]. rewrite (@_add_count_cross_complex_spec _ _ _ m) by assumption. reflexivity. Qed.

Theorem cross_count_real_fresh t1 t2 n :
  cross_count t1 t2 (Some n) false None =
  Ok (map (fun k => length (pairs_at k (times (targ_times t1)) (times (targ_opt t1 t2)))) (seq 0 n)).
Proof.
  unfold cross_count. cbn [_default_count bind]. rewrite _add_count_cross_spec.
  f_equal. exact (plus_cells_zero natmon n _).
Qed.

Theorem cross_count_complex_fresh t1 t2 n : (0 < n)%nat ->
  cross_count t1 t2 (Some n) true None =
  Ok (map (fun i => length (pairs_signed (lag_at n i) (times (targ_times t1)) (times (targ_opt t1 t2)))) (seq 0 (2 * n - 1))).
Proof.
  intros H. unfold cross_count. cbn [_default_count bind].
  replace (n =? 0)%nat with false by lia. cbn [bind].
  rewrite (@_add_count_cross_complex_spec _ _ _ n); [|apply repeat_length|exact H].
  f_equal. exact (plus_cells_zero natmon (2 * n - 1) _).
Qed.

Theorem auto_count_aout t n out :
  auto_count t n (Some out) =
  Ok (plus_cells natmon out (fun k => length (upairs_at k (times (targ_times t))))).
Proof. unfold auto_count. cbn [_default_count bind]. rewrite _add_count_auto_spec. reflexivity. Qed.

Theorem auto_count_fresh t n :
  auto_count t (Some n) None = Ok (map (fun k => length (upairs_at k (times (targ_times t)))) (seq 0 n)).
Proof.
  unfold auto_count. cbn [_default_count bind]. rewrite _add_count_auto_spec.
  f_equal. exact (plus_cells_zero natmon n _).
Qed.
