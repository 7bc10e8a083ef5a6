(** Proofs that the irregular-spaced kernels compute the pair sums. *)
From Verif Require Import Base Kernels PairSpec.
From Coq Require Import ZifyBool ZifyNat.
Ltac Zify.zify_post_hook ::= Z.div_mod_to_equations.
Set Implicit Arguments.

(* ------------------------------------------------------------------ *)
(** * Nested loops as folds over lists of pairs *)

Lemma fold_left_map A B S (f : S -> B -> S) (g : A -> B) l s :
  fold_left f (map g l) s = fold_left (fun s x => f s (g x)) l s.
Proof. revert s; induction l as [|x l IH]; intros s; simpl; auto. Qed.

Lemma fold_left_ext A S (f g : S -> A -> S) l s :
  (forall s x, In x l -> f s x = g s x) -> fold_left f l s = fold_left g l s.
Proof.
  revert s; induction l as [|x l IH]; intros s H; simpl; [reflexivity|].
  rewrite H by now left. apply IH. intros; apply H; now right.
Qed.

Lemma fold_list_prod A B S (body : A -> B -> S -> S) (la : list A) (lb : list B) s :
  fold_left (fun s a => fold_left (fun s b => body a b s) lb s) la s =
  fold_left (fun s p => body (fst p) (snd p) s) (list_prod la lb) s.
Proof.
  revert s; induction la as [|a la IH]; intros s; simpl; [reflexivity|].
  rewrite fold_left_app, fold_left_map. simpl. apply IH.
Qed.

Lemma nested_cross A B S (la : list A) (lb : list B) da db (body : A -> B -> S -> S) s :
  for_range 0 (length la) (fun i s =>
    for_range 0 (length lb) (fun j s => body (nth i la da) (nth j lb db) s) s) s =
  fold_left (fun s p => body (fst p) (snd p) s) (list_prod la lb) s.
Proof.
  rewrite <- fold_list_prod.
  rewrite <- (for_range_nth la da (fun a s => fold_left (fun s b => body a b s) lb s) s).
  apply for_range_ext. intros i s' _.
  apply (for_range_nth lb db (body (nth i la da)) s').
Qed.

Lemma for_range_shift S a b k (body : nat -> S -> S) s :
  for_range (a + k) (b + k) body s = for_range a b (fun i s => body (i + k)%nat s) s.
Proof.
  unfold for_range. replace (b + k - (a + k))%nat with (b - a)%nat by lia.
  rewrite <- fold_left_map with (f := fun s i => body i s) (g := fun i => (i + k)%nat).
  f_equal. generalize (b - a)%nat as m. intros m. clear b. revert a. induction m as [|m IH]; intros a; simpl; [reflexivity|].
  f_equal. rewrite <- IH. reflexivity.
Qed.

Lemma nested_auto A S (l : list A) d (body : A -> A -> S -> S) s :
  for_range 0 (length l) (fun i s =>
    for_range i (length l) (fun j s => body (nth i l d) (nth j l d) s) s) s =
  fold_left (fun s p => body (fst p) (snd p) s) (upairs l) s.
Proof.
  revert s. induction l as [|x l IH]; intros s; [reflexivity|].
  cbn [length upairs]. rewrite fold_left_app, <- IH.
  rewrite for_range_first by lia.
  replace (for_range 0 (Datatypes.S (length l)) (fun j s => body (nth 0 (x :: l) d) (nth j (x :: l) d) s) s)
    with (fold_left (fun s p => body (fst p) (snd p) s) (map (pair x) (x :: l)) s).
  2:{ rewrite fold_left_map. simpl fst; simpl snd.
      symmetry. change (Datatypes.S (length l)) with (length (x :: l)).
      cbn [nth]. exact (for_range_nth (x :: l) d (body x) s). }
  generalize (fold_left (fun s p => body (fst p) (snd p) s) (map (pair x) (x :: l)) s). clear s. intros s.
  replace (Datatypes.S (length l)) with (length l + 1)%nat by lia.
  change 1%nat with (0 + 1)%nat at 1. rewrite for_range_shift.
  apply for_range_ext. intros i s' _.
  rewrite for_range_shift. apply for_range_ext. intros j s'' _.
  replace (i + 1)%nat with (Datatypes.S i) by lia.
  replace (j + 1)%nat with (Datatypes.S j) by lia. reflexivity.
Qed.

Lemma times_length t : length (times t) = length t.
Proof. apply map_length. Qed.

Lemma nth_times t i : nth i (times t) (tt, 0%Z) = (tt, nth i t 0%Z).
Proof. exact (map_nth (pair tt) t 0%Z i). Qed.

(** Splitting the parallel arrays of values and times into samples. *)
Lemma nth_sample A (f : list A) (t : list Z) i d :
  length f = length t -> nth i (combine f t) (d, 0%Z) = (nth i f d, nth i t 0%Z).
Proof. intros H; apply combine_nth; exact H. Qed.

(* ------------------------------------------------------------------ *)
(** * Scattering *)

Section Scatter.
  Variables (M : CMon) (E : Type) (d : E -> Z) (v : E -> M).

  Lemma scatter_abs_length out z x : length (scatter_abs M out z x) = length out.
  Proof. unfold scatter_abs; destruct (_ <? _)%Z; [apply add_at_length|reflexivity]. Qed.

  Lemma fold_scatter_abs_length l out :
    length (fold_left (fun out e => scatter_abs M out (d e) (v e)) l out) = length out.
  Proof.
    revert out; induction l as [|e l IH]; intros out; simpl; [reflexivity|].
    rewrite IH; apply scatter_abs_length.
  Qed.

  Lemma fold_scatter_abs l out k : (k < length out)%nat ->
    nth k (fold_left (fun out e => scatter_abs M out (d e) (v e)) l out) (m0 M) =
    madd M (nth k out (m0 M)) (Sum M (filter (fun e => Z.abs (d e) =? Z.of_nat k)%Z l) v).
  Proof.
    revert out; induction l as [|e l IH]; intros out Hk; simpl.
    - rewrite Sum_nil, madd_0_r; reflexivity.
    - rewrite IH by (rewrite scatter_abs_length; exact Hk).
      unfold scatter_abs at 1.
      destruct (Z.ltb_spec (Z.abs (d e)) (Z.of_nat (length out))) as [Hin|Hout].
      + rewrite nth_add_at by lia.
        destruct (Z.eqb_spec (Z.abs (d e)) (Z.of_nat k)) as [E1|E1].
        * replace (Nat.eqb k (Z.to_nat (Z.abs (d e)))) with true by lia.
          rewrite Sum_cons, madd_assoc. reflexivity.
        * replace (Nat.eqb k (Z.to_nat (Z.abs (d e)))) with false by lia.
          rewrite madd_0_r. reflexivity.
      + destruct (Z.eqb_spec (Z.abs (d e)) (Z.of_nat k)) as [E1|E1]; [lia|reflexivity].
  Qed.

  Lemma scatter_signed_length out z x : length (scatter_signed M out z x) = length out.
  Proof. unfold scatter_signed; destruct (_ <? _)%Z; [apply add_at_length|reflexivity]. Qed.

  Lemma fold_scatter_signed_length l out :
    length (fold_left (fun out e => scatter_signed M out (d e) (v e)) l out) = length out.
  Proof.
    revert out; induction l as [|e l IH]; intros out; simpl; [reflexivity|].
    rewrite IH; apply scatter_signed_length.
  Qed.

  Lemma fold_scatter_signed l out n i : length out = (2 * n - 1)%nat -> (i < length out)%nat ->
    nth i (fold_left (fun out e => scatter_signed M out (d e) (v e)) l out) (m0 M) =
    madd M (nth i out (m0 M)) (Sum M (filter (fun e => d e =? lag_at n i)%Z l) v).
  Proof.
    revert out; induction l as [|e l IH]; intros out HL Hi; simpl.
    - rewrite Sum_nil, madd_0_r; reflexivity.
    - rewrite IH by (rewrite scatter_signed_length; assumption).
      unfold scatter_signed at 1. unfold lag_at, wrap_pos.
      destruct (Z.ltb_spec (Z.abs (d e)) ((Z.of_nat (length out) + 1) / 2)) as [Hin|Hout].
      + rewrite nth_add_at by (destruct (Z.ltb_spec (d e) 0); lia).
        destruct (Z.eqb_spec (d e) (if (i <? n)%nat then Z.of_nat i else (Z.of_nat i - (2 * Z.of_nat n - 1)))%Z) as [E1|E1].
        * replace (Nat.eqb i (Z.to_nat (if (d e <? 0)%Z then (d e + Z.of_nat (length out))%Z else d e))) with true.
          2:{ destruct (Z.ltb_spec (d e) 0), (Nat.ltb_spec i n); lia. }
          rewrite Sum_cons, madd_assoc. reflexivity.
        * replace (Nat.eqb i (Z.to_nat (if (d e <? 0)%Z then (d e + Z.of_nat (length out))%Z else d e))) with false.
          2:{ destruct (Z.ltb_spec (d e) 0), (Nat.ltb_spec i n); lia. }
          rewrite madd_0_r. reflexivity.
      + destruct (Z.eqb_spec (d e) (if (i <? n)%nat then Z.of_nat i else (Z.of_nat i - (2 * Z.of_nat n - 1)))%Z) as [E1|E1]; [|reflexivity].
        exfalso. destruct (Nat.ltb_spec i n); lia.
  Qed.

  Lemma scatter_signed_half_odd out n z x : length out = (2 * n - 1)%nat -> (0 < n)%nat ->
    scatter_signed_half M out z x = scatter_signed M out z x.
  Proof.
    intros HL Hn. unfold scatter_signed_half, scatter_signed.
    replace (2 * Z.abs z <? Z.of_nat (length out) + 1)%Z
      with (Z.abs z <? (Z.of_nat (length out) + 1) / 2)%Z; [reflexivity|].
    destruct (Z.ltb_spec (Z.abs z) ((Z.of_nat (length out) + 1) / 2)); lia.
  Qed.
End Scatter.

Lemma plus_cells_length (M : CMon) out f : length (plus_cells M out f) = length out.
Proof. unfold plus_cells; rewrite map_length, seq_length; reflexivity. Qed.

Lemma nth_map_seq A (g : nat -> A) n k d : (k < n)%nat -> nth k (map g (seq 0 n)) d = g k.
Proof.
  intros H. rewrite (nth_indep _ d (g 0%nat)) by (rewrite map_length, seq_length; lia).
  rewrite map_nth, seq_nth by lia. reflexivity.
Qed.

Lemma nth_plus_cells (M : CMon) out f k : (k < length out)%nat ->
  nth k (plus_cells M out f) (m0 M) = madd M (nth k out (m0 M)) (f k).
Proof. intros H; unfold plus_cells; rewrite nth_map_seq by exact H; reflexivity. Qed.

Lemma plus_cells_intro (M : CMon) out out' f :
  length out' = length out ->
  (forall k, (k < length out)%nat -> nth k out' (m0 M) = madd M (nth k out (m0 M)) (f k)) ->
  out' = plus_cells M out f.
Proof.
  intros HL H. apply list_nth_ext with (d := m0 M).
  - rewrite plus_cells_length; exact HL.
  - intros k Hk. rewrite nth_plus_cells by lia. apply H; lia.
Qed.

Lemma plus_cells_ext (M : CMon) out f g :
  (forall k, (k < length out)%nat -> f k = g k) -> plus_cells M out f = plus_cells M out g.
Proof.
  intros H. unfold plus_cells. apply map_ext_in. intros k Hk. apply in_seq in Hk.
  rewrite H by lia. reflexivity.
Qed.

Lemma fold_scatter_abs_cells (M : CMon) E (d : E -> Z) (v : E -> M) l out :
  fold_left (fun out e => scatter_abs M out (d e) (v e)) l out =
  plus_cells M out (fun k => Sum M (filter (fun e => Z.abs (d e) =? Z.of_nat k)%Z l) v).
Proof.
  apply plus_cells_intro; [apply fold_scatter_abs_length|].
  intros k Hk; apply fold_scatter_abs; exact Hk.
Qed.

Lemma fold_scatter_signed_cells (M : CMon) E (d : E -> Z) (v : E -> M) l out n :
  length out = (2 * n - 1)%nat ->
  fold_left (fun out e => scatter_signed M out (d e) (v e)) l out =
  plus_cells M out (fun i => Sum M (filter (fun e => d e =? lag_at n i)%Z l) v).
Proof.
  intros HL. apply plus_cells_intro; [apply fold_scatter_signed_length|].
  intros k Hk; apply fold_scatter_signed; assumption.
Qed.

(* ------------------------------------------------------------------ *)
(** * The kernels *)

Section Kernels.
  Variable K : Fld.
  Add Field Kfield : (flaw K).
  Notation C := (Cx K).

  Lemma _cross_corr_spec (x y : list C) t1 t2 out :
    length x = length t1 -> length y = length t2 ->
    _cross_corr x y t1 t2 out = plus_cells (fmon K) out (corr_spec (combine x t1) (combine y t2)).
  Proof.
    intros H1 H2. unfold _cross_corr.
    pose (body := fun (a b : sample C) (o : list K) =>
      scatter_abs (fmon K) o (snd b - snd a)%Z
        (fadd K (fmul K (cre (fst a)) (cre (fst b))) (fmul K (cim (fst a)) (cim (fst b))))).
    transitivity (for_range 0 (length (combine x t1)) (fun i s =>
      for_range 0 (length (combine y t2)) (fun j s =>
        body (nth i (combine x t1) (c0 K, 0%Z)) (nth j (combine y t2) (c0 K, 0%Z)) s) s) out).
    - rewrite !combine_length, <- H1, <- H2, !Nat.min_id.
      apply for_range_ext; intros i s _; apply for_range_ext; intros j s' _.
      rewrite !nth_sample by assumption. reflexivity.
    - rewrite nested_cross. unfold body.
      rewrite (fold_scatter_abs_cells (fmon K) (fun p : sample C * sample C => delay p)
                 (fun p => fadd K (fmul K (cre (fst (fst p))) (cre (fst (snd p))))
                                  (fmul K (cim (fst (fst p))) (cim (fst (snd p)))))).
      apply plus_cells_ext. intros k _. unfold corr_spec, pairs_at.
      apply Sum_ext. intros p _. unfold re_prod, cmul, conj, cre, cim; simpl; ring.
  Qed.

  Lemma _cross_corr_complex_spec (x y : list C) t1 t2 out n :
    length x = length t1 -> length y = length t2 -> length out = (2 * n - 1)%nat ->
    _cross_corr_complex x y t1 t2 out =
    plus_cells (cmon K) out (fun i => corr_complex_spec (combine x t1) (combine y t2) (lag_at n i)).
  Proof.
    intros H1 H2 HL. unfold _cross_corr_complex.
    pose (body := fun (a b : sample C) (o : list C) =>
      scatter_signed (cmon K) o (snd b - snd a)%Z (cmul (conj (fst a)) (fst b))).
    transitivity (for_range 0 (length (combine x t1)) (fun i s =>
      for_range 0 (length (combine y t2)) (fun j s =>
        body (nth i (combine x t1) (c0 K, 0%Z)) (nth j (combine y t2) (c0 K, 0%Z)) s) s) out).
    - rewrite !combine_length, <- H1, <- H2, !Nat.min_id.
      apply for_range_ext; intros i s _; apply for_range_ext; intros j s' _.
      rewrite !nth_sample by assumption. reflexivity.
    - rewrite nested_cross. unfold body.
      rewrite (@fold_scatter_signed_cells (cmon K) _ (fun p : sample C * sample C => delay p)
                 (fun p => cmul (conj (fst (fst p))) (fst (snd p))) _ _ _ HL).
      reflexivity.
  Qed.

  Lemma _auto_corr_spec (f : list C) t out :
    length f = length t ->
    _auto_corr f t out = plus_cells (fmon K) out (acorr_spec (combine f t)).
  Proof.
    intros H1. unfold _auto_corr.
    pose (body := fun (a b : sample C) (o : list K) =>
      scatter_abs (fmon K) o (snd b - snd a)%Z
        (fadd K (fmul K (cre (fst a)) (cre (fst b))) (fmul K (cim (fst a)) (cim (fst b))))).
    transitivity (for_range 0 (length (combine f t)) (fun i s =>
      for_range i (length (combine f t)) (fun j s =>
        body (nth i (combine f t) (c0 K, 0%Z)) (nth j (combine f t) (c0 K, 0%Z)) s) s) out).
    - rewrite !combine_length, <- H1, !Nat.min_id.
      apply for_range_ext; intros i s _; apply for_range_ext; intros j s' _.
      rewrite !nth_sample by assumption. reflexivity.
    - rewrite nested_auto. unfold body.
      rewrite (fold_scatter_abs_cells (fmon K) (fun p : sample C * sample C => delay p)
                 (fun p => fadd K (fmul K (cre (fst (fst p))) (cre (fst (snd p))))
                                  (fmul K (cim (fst (fst p))) (cim (fst (snd p)))))).
      apply plus_cells_ext. intros k _. unfold acorr_spec, upairs_at.
      apply Sum_ext. intros p _. unfold re_prod, cmul, conj, cre, cim; simpl; ring.
  Qed.

  Lemma _auto_corr_complex_spec (f : list C) t out :
    length f = length t ->
    _auto_corr_complex f t out = plus_cells (cmon K) out (acorr_complex_spec (combine f t)).
  Proof.
    intros H1. unfold _auto_corr_complex.
    pose (body := fun (a b : sample C) (o : list C) =>
      scatter_abs (cmon K) o (snd b - snd a)%Z (cx_prod_ordered (a, b))).
    transitivity (for_range 0 (length (combine f t)) (fun i s =>
      for_range i (length (combine f t)) (fun j s =>
        body (nth i (combine f t) (c0 K, 0%Z)) (nth j (combine f t) (c0 K, 0%Z)) s) s) out).
    - rewrite !combine_length, <- H1, !Nat.min_id.
      apply for_range_ext; intros i s _; apply for_range_ext; intros j s' _.
      rewrite !nth_sample by assumption. unfold body, scatter_abs, cx_prod_ordered, cx_prod; simpl.
      set (a := nth i f (c0 K)); set (b := nth j f (c0 K)).
      set (ti := nth i t 0%Z); set (tj := nth j t 0%Z).
      destruct (Z.leb_spec 0 (tj - ti)).
      + rewrite Z.abs_eq by lia. replace (ti <=? tj)%Z with true by lia. reflexivity.
      + replace (ti <=? tj)%Z with false by lia.
        replace (cmul a (conj b)) with (cmul (conj b) a); [reflexivity|].
        unfold cmul, conj, cre, cim; simpl; f_equal; ring.
    - rewrite nested_auto. unfold body.
      rewrite (fold_scatter_abs_cells (cmon K) (fun p : sample C * sample C => delay p)
                 (fun p => cx_prod_ordered (fst p, snd p))).
      apply plus_cells_ext. intros k _. unfold acorr_complex_spec, upairs_at.
      apply Sum_ext. intros [a b] _. reflexivity.
  Qed.

  Lemma _cross_diff_spec (x y : list C) t1 t2 out :
    length x = length t1 -> length y = length t2 ->
    _cross_diff x y t1 t2 out = plus_cells (fmon K) out (diff_spec (combine x t1) (combine y t2)).
  Proof.
    intros H1 H2. unfold _cross_diff.
    pose (body := fun (a b : sample C) (o : list K) =>
      scatter_abs (fmon K) o (snd b - snd a)%Z (sq_diff (a, b))).
    transitivity (for_range 0 (length (combine x t1)) (fun i s =>
      for_range 0 (length (combine y t2)) (fun j s =>
        body (nth i (combine x t1) (c0 K, 0%Z)) (nth j (combine y t2) (c0 K, 0%Z)) s) s) out).
    - rewrite !combine_length, <- H1, <- H2, !Nat.min_id.
      apply for_range_ext; intros i s _; apply for_range_ext; intros j s' _.
      rewrite !nth_sample by assumption. reflexivity.
    - rewrite nested_cross. unfold body.
      rewrite (fold_scatter_abs_cells (fmon K) (fun p : sample C * sample C => delay p)
                 (fun p => sq_diff (fst p, snd p))).
      apply plus_cells_ext. intros k _. unfold diff_spec, pairs_at.
      apply Sum_ext. intros [a b] _. reflexivity.
  Qed.

  Lemma _auto_diff_spec (f : list C) t out :
    length f = length t ->
    _auto_diff f t out = plus_cells (fmon K) out (adiff_spec (combine f t)).
  Proof.
    intros H1. unfold _auto_diff.
    pose (body := fun (a b : sample C) (o : list K) =>
      scatter_abs (fmon K) o (snd b - snd a)%Z (sq_diff (a, b))).
    transitivity (for_range 0 (length (combine f t)) (fun i s =>
      for_range i (length (combine f t)) (fun j s =>
        body (nth i (combine f t) (c0 K, 0%Z)) (nth j (combine f t) (c0 K, 0%Z)) s) s) out).
    - rewrite !combine_length, <- H1, !Nat.min_id.
      apply for_range_ext; intros i s _; apply for_range_ext; intros j s' _.
      rewrite !nth_sample by assumption. reflexivity.
    - rewrite nested_auto. unfold body.
      rewrite (fold_scatter_abs_cells (fmon K) (fun p : sample C * sample C => delay p)
                 (fun p => sq_diff (fst p, snd p))).
      apply plus_cells_ext. intros k _. unfold adiff_spec, upairs_at.
      apply Sum_ext. intros [a b] _. reflexivity.
  Qed.
End Kernels.

Section SumKernels.
  Variable G : QGrp.

  Lemma _cross_sum_spec (f : list G) t1 t2 out :
    length f = length t1 ->
    _cross_sum G f t1 t2 out = plus_cells G out (sum_spec G (combine f t1) (times t2)).
  Proof.
    intros H1. unfold _cross_sum.
    pose (body := fun (a : sample G) (b : sample unit) (o : list G) =>
      scatter_abs G o (snd b - snd a)%Z (fst a)).
    transitivity (for_range 0 (length (combine f t1)) (fun i s =>
      for_range 0 (length (times t2)) (fun j s =>
        body (nth i (combine f t1) (m0 G, 0%Z)) (nth j (times t2) (tt, 0%Z)) s) s) out).
    - rewrite !combine_length, times_length, <- H1, !Nat.min_id.
      apply for_range_ext; intros i s _; apply for_range_ext; intros j s' _.
      rewrite !nth_sample by assumption. rewrite nth_times. reflexivity.
    - rewrite nested_cross. unfold body.
      rewrite (fold_scatter_abs_cells G (fun p : sample G * sample unit => delay p)
                 (fun p => fst (fst p))).
      reflexivity.
  Qed.

  Lemma _cross_sum_complex_spec (f : list G) t1 t2 out n :
    length f = length t1 -> length out = (2 * n - 1)%nat ->
    _cross_sum_complex G f t1 t2 out =
    plus_cells G out (fun i => sum_signed_spec G (combine f t1) (times t2) (lag_at n i)).
  Proof.
    intros H1 HL. unfold _cross_sum_complex.
    pose (body := fun (a : sample G) (b : sample unit) (o : list G) =>
      scatter_signed G o (snd b - snd a)%Z (fst a)).
    transitivity (for_range 0 (length (combine f t1)) (fun i s =>
      for_range 0 (length (times t2)) (fun j s =>
        body (nth i (combine f t1) (m0 G, 0%Z)) (nth j (times t2) (tt, 0%Z)) s) s) out).
    - rewrite !combine_length, times_length, <- H1, !Nat.min_id.
      apply for_range_ext; intros i s _; apply for_range_ext; intros j s' _.
      rewrite !nth_sample by assumption. rewrite nth_times. reflexivity.
    - rewrite nested_cross. unfold body.
      rewrite (@fold_scatter_signed_cells G _ (fun p : sample G * sample unit => delay p)
                 (fun p => fst (fst p)) _ _ _ HL).
      reflexivity.
  Qed.
End SumKernels.

(* ------------------------------------------------------------------ *)
(** * Counts *)

Lemma Sum_nat_1 A (l : list A) : Sum natmon l (fun _ => 1%nat) = length l.
Proof. induction l as [|x l IH]; [reflexivity|]. rewrite Sum_cons, IH. reflexivity. Qed.

Lemma _add_count_cross_spec t1 t2 out :
  _add_count_cross t1 t2 out =
  plus_cells natmon out (fun k => length (pairs_at k (times t1) (times t2))).
Proof.
  unfold _add_count_cross.
  pose (body := fun (a b : sample unit) (o : list nat) =>
    scatter_abs natmon o (snd b - snd a)%Z 1%nat).
  transitivity (for_range 0 (length (times t1)) (fun i s =>
    for_range 0 (length (times t2)) (fun j s =>
      body (nth i (times t1) (tt, 0%Z)) (nth j (times t2) (tt, 0%Z)) s) s) out).
  - rewrite !times_length.
    apply for_range_ext; intros i s _; apply for_range_ext; intros j s' _.
    rewrite !nth_times. reflexivity.
  - rewrite nested_cross. unfold body.
    rewrite (fold_scatter_abs_cells natmon (fun p : sample unit * sample unit => delay p)
               (fun _ => 1%nat)).
    apply plus_cells_ext; intros k _. apply Sum_nat_1.
Qed.

Lemma fold_left_length_ext A B (f g : list B -> A -> list B) (l : list A) s n :
  length s = n ->
  (forall s x, length s = n -> f s x = g s x /\ length (g s x) = n) ->
  fold_left f l s = fold_left g l s.
Proof.
  revert s; induction l as [|x l IH]; intros s Hs H; simpl; [reflexivity|].
  destruct (H s x Hs) as [E1 E2]. rewrite E1. apply IH; [exact E2|exact H].
Qed.

Lemma _add_count_cross_complex_spec t1 t2 out n :
  length out = (2 * n - 1)%nat -> (0 < n)%nat ->
  _add_count_cross_complex t1 t2 out =
  plus_cells natmon out (fun i => length (pairs_signed (lag_at n i) (times t1) (times t2))).
Proof.
  intros HL Hn. unfold _add_count_cross_complex.
  pose (body := fun (a b : sample unit) (o : list nat) =>
    scatter_signed_half natmon o (snd b - snd a)%Z 1%nat).
  transitivity (for_range 0 (length (times t1)) (fun i s =>
    for_range 0 (length (times t2)) (fun j s =>
      body (nth i (times t1) (tt, 0%Z)) (nth j (times t2) (tt, 0%Z)) s) s) out).
  - rewrite !times_length.
    apply for_range_ext; intros i s _; apply for_range_ext; intros j s' _.
    rewrite !nth_times. reflexivity.
  - rewrite nested_cross. unfold body.
    rewrite (@fold_left_length_ext _ _ _
      (fun o (p : sample unit * sample unit) => scatter_signed natmon o (delay p) 1%nat) _ out _ HL).
    2:{ intros s p Hs. split; [|rewrite scatter_signed_length; exact Hs].
        apply scatter_signed_half_odd with (n := n); assumption. }
    rewrite (@fold_scatter_signed_cells natmon _ (fun p : sample unit * sample unit => delay p)
               (fun _ => 1%nat) _ _ _ HL).
    apply plus_cells_ext; intros k _. apply Sum_nat_1.
Qed.

Lemma _add_count_auto_spec t out :
  _add_count_auto t out = plus_cells natmon out (fun k => length (upairs_at k (times t))).
Proof.
  unfold _add_count_auto.
  pose (body := fun (a b : sample unit) (o : list nat) =>
    scatter_abs natmon o (snd b - snd a)%Z 1%nat).
  transitivity (for_range 0 (length (times t)) (fun i s =>
    for_range i (length (times t)) (fun j s =>
      body (nth i (times t) (tt, 0%Z)) (nth j (times t) (tt, 0%Z)) s) s) out).
  - rewrite !times_length.
    apply for_range_ext; intros i s _; apply for_range_ext; intros j s' _.
    rewrite !nth_times. unfold body, scatter_abs. simpl.
    replace (Z.abs (nth i t 0 - nth j t 0))%Z with (Z.abs (nth j t 0 - nth i t 0))%Z by lia. reflexivity.
  - rewrite nested_auto. unfold body.
    rewrite (fold_scatter_abs_cells natmon (fun p : sample unit * sample unit => delay p)
               (fun _ => 1%nat)).
    apply plus_cells_ext; intros k _. apply Sum_nat_1.
Qed.
