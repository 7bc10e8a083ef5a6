(** C89: the retired formulas of _core_nb.py are what their arguments suggest, and agree with those in use. *)
From Verif Require Import Base Examples NormModel RetiredModel.
Set Implicit Arguments.

Section Retired.
  Variable K : Fld.
  Add Field Kretired : (flaw K).
  Notation C := (Cx K).
  Local Notation "0" := (f0 K).
  Local Infix "+" := (fadd K).
  Local Infix "*" := (fmul K).
  Local Infix "-" := (fsub K).
  Local Infix "/" := (fdiv K).
  Local Notation "- x" := (fopp K x).
  Local Notation "2" := (f1 K + f1 K).
  (** Sums and means over a list of pairs of frames (a, b) *)
  Fixpoint total (f : C * C -> K) (l : list (C * C)) : K := match l with [] => 0 | p :: l => f p + total f l end.
  Definition mean (f : C * C -> K) (l : list (C * C)) : fval K := match l with [] => NonFin | _ => Fin (total f l / fnat K (length l)) end.
  (** Real part of conj(a) b, square of the modulus *)
  Definition dot (a b : C) : K := cre a * cre b + cim a * cim b.
  Definition norm2 (a : C) : K := cre a * cre a + cim a * cim a.
  (** What the correlation functions sum up *)
  Definition corr_sum l := total (fun p => dot (fst p) (snd p)) l.
  Definition diff_sum l := total (fun p => norm2 (csub (snd p) (fst p))) l.
  Definition square_sum l := total (fun p => norm2 (fst p) + norm2 (snd p)) l.
  Definition first_sum l : C := (total (fun p => cre (fst p)) l, total (fun p => cim (fst p)) l).
  Definition second_sum l : C := (total (fun p => cre (snd p)) l, total (fun p => cim (snd p)) l).
  (** The mean of a sum of complex numbers *)
  Definition average (s : C) (n : nat) : C := (cre s / fnat K n, cim s / fnat K n).

  Lemma number_pos (l : list (C * C)) : l <> [] -> fnat K (length l) <> 0.
  Proof. intros H. apply fnat_neq0. destruct l; [congruence|cbn; lia]. Qed.
  Lemma over_pos x (l : list (C * C)) : l <> [] -> over K x (length l) = Fin (x / fnat K (length l)).
  Proof. destruct l; [congruence|reflexivity]. Qed.
  Lemma mean_pos f l : l <> [] -> mean f l = Fin (total f l / fnat K (length l)).
  Proof. destruct l; [congruence|reflexivity]. Qed.
  Lemma two_neq : 2 <> 0.
  Proof. intros H. apply (@fnat_neq0 K 2%nat); [lia|]. transitivity 2; [cbn; ring|exact H]. Qed.

  (** Expansions of the sums *)
  Lemma tot_corr l b1 b2 : total (fun p => dot (csub (fst p) b1) (csub (snd p) b2)) l = corr_sum l - dot b1 (second_sum l) - dot b2 (first_sum l) + fnat K (length l) * dot b1 b2.
  Proof.
    unfold corr_sum, dot. induction l as [|[[a a'] [b b']] l IH]; [change (fnat K (length (@nil (C * C)))) with 0; cbn; ring|].
    cbn [total first_sum second_sum fst snd cre cim csub length] in *. rewrite IH. rewrite fnat_S. destruct b1 as [x x'], b2 as [y y']. cbn [cre cim fst snd]. ring.
  Qed.
  Lemma tot_diff l d : total (fun p => norm2 (csub (csub (snd p) (fst p)) d)) l = diff_sum l - 2 * dot d (csub (second_sum l) (first_sum l)) + fnat K (length l) * norm2 d.
  Proof.
    unfold diff_sum, dot, norm2. induction l as [|[[a a'] [b b']] l IH]; [change (fnat K (length (@nil (C * C)))) with 0; cbn; ring|].
    cbn [total first_sum second_sum fst snd cre cim csub length] in *. rewrite IH. rewrite fnat_S. destruct d as [x x']. cbn [cre cim fst snd]. ring.
  Qed.
  Lemma diff_corr l : diff_sum l = square_sum l - 2 * corr_sum l.
  Proof.
    unfold diff_sum, square_sum, corr_sum, dot, norm2. induction l as [|[[a a'] [b b']] l IH]; [cbn; ring|]. cbn [total fst snd cre cim csub] in *. rewrite IH. ring.
  Qed.
  Lemma sub_swap (p : C * C) b1 b2 : norm2 (csub (csub (snd p) b2) (csub (fst p) b1)) = norm2 (csub (csub (snd p) (fst p)) (csub b2 b1)).
  Proof. destruct p as [[a a'] [b b']], b1 as [x x'], b2 as [y y']. unfold norm2. cbn [fst snd cre cim csub]. ring. Qed.
  Lemma total_ext f g l : (forall p, f p = g p) -> total f l = total g l.
  Proof. intros H. induction l as [|p l IH]; [reflexivity|]. cbn. rewrite H, IH. reflexivity. Qed.

  (** Correlations: the mean product, its background removed afterwards (0), before (2), or the means removed (2b) *)
  Theorem C89_correlation l b1 b2 : l <> [] ->
    _normalize_ccorr_0 (corr_sum l) (length l) b1 b2 = fv_map (fun x => x - dot b1 b2) (mean (fun p => dot (fst p) (snd p)) l) /\
    _normalize_ccorr_2 (corr_sum l) (length l) b1 b2 (first_sum l) (second_sum l) = mean (fun p => dot (csub (fst p) b1) (csub (snd p) b2)) l /\
    _normalize_ccorr_2b (corr_sum l) (length l) (first_sum l) (second_sum l) = mean (fun p => dot (csub (fst p) (average (first_sum l) (length l))) (csub (snd p) (average (second_sum l) (length l)))) l.
  Proof.
    intros H. pose proof (number_pos H) as N. repeat split.
    - unfold _normalize_ccorr_0. rewrite over_pos, mean_pos by exact H. reflexivity.
    - unfold _normalize_ccorr_2. rewrite over_pos, mean_pos by exact H. cbn [fv_map]. f_equal. rewrite tot_corr. unfold dot. field. exact N.
    - unfold _normalize_ccorr_2b. rewrite over_pos by exact H. cbn [fv_bind]. rewrite over_pos, mean_pos by exact H. f_equal. rewrite tot_corr. unfold dot, average. cbn [cre cim fst snd]. field. exact N.
  Qed.
  (** Differences: the mean square with a baseline removed afterwards (1) or before (3) *)
  Theorem C89_difference l d : l <> [] ->
    _normalize_cdiff_1 (diff_sum l) (length l) d = fv_map (fun x => x - norm2 d) (mean (fun p => norm2 (csub (snd p) (fst p))) l) /\
    _normalize_cdiff_3 (diff_sum l) (length l) d (first_sum l) (second_sum l) = mean (fun p => norm2 (csub (csub (snd p) (fst p)) d)) l.
  Proof.
    intros H. pose proof (number_pos H) as N. split.
    - unfold _normalize_cdiff_1. rewrite over_pos, mean_pos by exact H. reflexivity.
    - unfold _normalize_cdiff_3. rewrite over_pos, mean_pos by exact H. cbn [fv_map]. f_equal. rewrite tot_diff. unfold dot, norm2. field. exact N.
  Qed.
  (** Structure functions: minus half of the mean square difference, of the frames (1), of the frames with
      their background removed (3), or with their means removed (3b) *)
  Theorem C89_structure l b1 b2 : l <> [] ->
    _normalize_ccorr_1 (corr_sum l) (length l) b1 b2 (square_sum l) = fv_map (fun x => - (x / 2) + norm2 (csub b2 b1) / 2) (mean (fun p => norm2 (csub (snd p) (fst p))) l) /\
    _normalize_ccorr_3 (corr_sum l) (length l) b1 b2 (square_sum l) (first_sum l) (second_sum l) = fv_map (fun x => - (x / 2)) (mean (fun p => norm2 (csub (csub (snd p) b2) (csub (fst p) b1))) l) /\
    _normalize_ccorr_3b (corr_sum l) (length l) (square_sum l) (first_sum l) (second_sum l) =
      fv_map (fun x => - (x / 2)) (mean (fun p => norm2 (csub (csub (snd p) (average (second_sum l) (length l))) (csub (fst p) (average (first_sum l) (length l))))) l).
  Proof.
    intros H. pose proof (number_pos H) as N. pose proof two_neq as N2. pose proof (diff_corr l) as D. repeat split.
    - unfold _normalize_ccorr_1, half. rewrite over_pos, mean_pos by exact H. cbn [fv_map]. f_equal. fold (diff_sum l). rewrite D. unfold norm2. destruct b1 as [x x'], b2 as [y y']. cbn [cre cim fst snd csub]. field. split; assumption.
    - unfold _normalize_ccorr_3, half. rewrite over_pos, mean_pos by exact H. cbn [fv_map]. f_equal. rewrite (total_ext _ _ l (fun p => sub_swap p b1 b2)), tot_diff, D. unfold norm2, dot. destruct b1 as [x x'], b2 as [y y']. cbn [cre cim fst snd csub]. field. split; assumption.
    - unfold _normalize_ccorr_3b, half. rewrite over_pos by exact H. cbn [fv_bind]. rewrite over_pos, mean_pos by exact H. cbn [fv_map]. f_equal. rewrite (total_ext _ _ l (fun p => sub_swap p _ _)), tot_diff, D. unfold norm2, dot, average. cbn [cre cim fst snd csub]. field. split; assumption.
  Qed.
  (** The formulas in use are the same, with the variance added in the structured ones. *)
  Theorem C89_in_use (data : K) count (b1 b2 m1 m2 : C) (var sq : K) :
    _normalize_corr_baseline_real data count b1 b2 = _normalize_ccorr_0 data count b1 b2 /\
    _normalize_corr_subtracted_real data count b1 b2 m1 m2 = _normalize_ccorr_2 data count b1 b2 m1 m2 /\
    _normalize_corr_compensated_real data count m1 m2 = _normalize_ccorr_2b data count m1 m2 /\
    _normalize_struct_baseline_real data count b1 b2 var sq = fv_map (fun x => x + var) (_normalize_ccorr_1 data count b1 b2 sq) /\
    _normalize_struct_subtracted_real data count b1 b2 var sq m1 m2 = fv_map (fun x => x + var) (_normalize_ccorr_3 data count b1 b2 sq m1 m2) /\
    _normalize_struct_compensated_real data count var sq m1 m2 = fv_map (fun x => x + var) (_normalize_ccorr_3b data count sq m1 m2).
  Proof. repeat split; destruct count; reflexivity. Qed.
  (** Without a pair nothing is finite. *)
  Theorem C89_none (data sq : K) (b1 b2 m1 m2 : C) :
    _normalize_ccorr_0 data 0%nat b1 b2 = NonFin /\ _normalize_ccorr_1 data 0%nat b1 b2 sq = NonFin /\ _normalize_ccorr_2 data 0%nat b1 b2 m1 m2 = NonFin /\ _normalize_ccorr_2b data 0%nat m1 m2 = NonFin /\
    _normalize_ccorr_3 data 0%nat b1 b2 sq m1 m2 = NonFin /\ _normalize_ccorr_3b data 0%nat sq m1 m2 = NonFin /\ _normalize_cdiff_1 data 0%nat b1 = NonFin /\ _normalize_cdiff_3 data 0%nat b1 m1 m2 = NonFin.
  Proof. repeat split. Qed.
  (** The reader of a symmetric function: inside the array its value, beyond it zero, but the first place
      beyond the array is read outside of it. *)
  Theorem C89_reader_refuted (a : list K) index :
    (Z.abs_nat index < length a -> exists x, nth_error a (Z.abs_nat index) = Some x /\ _g K a index = Ok x)%nat /\
    (length a < Z.abs_nat index -> _g K a index = Ok (f0 K))%nat /\ (Z.abs_nat index = length a -> _g K a index = Raise OutOfBounds) /\ _g K a (- index)%Z = _g K a index.
  Proof.
    unfold _g. split; [|split; [|split]].
    - intros H. destruct (Nat.ltb_spec (length a) (Z.abs_nat index)); [lia|]. destruct (nth_error a (Z.abs_nat index)) as [x|] eqn:E; [exists x; auto|]. apply nth_error_None in E. lia.
    - intros H. destruct (Nat.ltb_spec (length a) (Z.abs_nat index)); [reflexivity|lia].
    - intros ->. rewrite Nat.ltb_irrefl. destruct (nth_error a (length a)) as [x|] eqn:E; [|reflexivity]. assert (nth_error a (length a) <> None) by congruence. apply nth_error_Some in H. lia.
    - replace (Z.abs_nat (- index)) with (Z.abs_nat index) by lia. reflexivity.
  Qed.
End Retired.
Print Assumptions C89_correlation.
Print Assumptions C89_difference.
Print Assumptions C89_structure.
Print Assumptions C89_in_use.
Print Assumptions C89_none.
Print Assumptions C89_reader_refuted.
Definition fv_show (x : fval QcF) : option (Z * Z) := match x with Fin x => Some (show x) | NonFin => None end.
(** Two pairs of frames *)
Example C89_holds : let l := [((q 1, q 2), (q 3, q 0)); ((q 0, q 1), (q 2, q 2))] : list (Cx QcF * Cx QcF) in
  (fv_show (_normalize_ccorr_2b (K := QcF) (corr_sum l) 2 (first_sum l) (second_sum l)), fv_show (_normalize_ccorr_2 (K := QcF) (corr_sum l) 2 (q 1, q 1) (q 2, q 1) (first_sum l) (second_sum l)),
   fv_show (_normalize_ccorr_3b (K := QcF) (corr_sum l) 2 (square_sum l) (first_sum l) (second_sum l)), fv_show (_normalize_cdiff_3 (K := QcF) (diff_sum l) 2 (q 1, q 0) (first_sum l) (second_sum l))) =
  (Some (-1, 4)%Z, Some (-1, 2)%Z, Some (-9, 8)%Z, Some (7, 2)%Z).
Proof. vm_compute. reflexivity. Qed.
