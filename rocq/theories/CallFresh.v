(** Calls of ccorr and acorr without an output array, in terms of the pairs they add, and
    merging the pairs across chunks into the tuple of an auto-correlation. *)
From Verif Require Import Base Kernels PairSpec KernelProofs PairLemmas RegularProofs CoreModel FftModel CoreProofs CoreProofs2 CoreApi
  NormModel CorrModel CorrSpec CorrProofs CorrProofs2 PairAcc PairTuple StreamModel CallPairs.
From Coq Require Import String ZifyBool ZifyNat.
Open Scope string_scope.
Open Scope nat_scope.
Open Scope list_scope.
Local Notation length := List.length.
Set Implicit Arguments.

Lemma filter_none X (l : list X) : filter (fun _ => false) l = [].
Proof. induction l; auto. Qed.

Section Fresh.
  Variable K : Fld.
  Notation C := (Cx K).
  Variable W : nat -> Cx K.
  Notation sqarg := (sqarg K).
  Notation zeros := (zeros K).

  (** Squares that are not given are computed. *)
  Lemma ccorr_squares al m nm (f1 f2 : list C) t1 t2 n d : m = "corr" \/ m = "fft" \/ m = "diff" -> _default_norm (Some nm) m true = Ok nm ->
    ccorr W al f1 f2 t1 t2 n (Some nm) (Some m) (sqarg nm m (abs2 f1)) (sqarg nm m (abs2 f2)) d = ccorr W al f1 f2 t1 t2 n (Some nm) (Some m) None None d.
  Proof.
    intros Hm HN. unfold ccorr, ccorr_gen. replace (_default_method (Some m) n) with (@Ok string m) by (destruct Hm as [->|[->| ->]]; reflexivity).
    cbn [bind]. rewrite HN. cbn [bind]. unfold CallPairs.sqarg. destruct (has_flag nm NORM_STRUCTURED && negb (String.eqb m "diff"))%bool; reflexivity.
  Qed.
  Lemma ccorr_complex_squares al m nm (f1 f2 : list C) t1 t2 n d : m = "corr" \/ m = "fft" \/ m = "diff" -> _default_norm (Some nm) m true = Ok nm ->
    ccorr_complex W al f1 f2 t1 t2 n (Some nm) (Some m) (sqarg nm m (abs2 f1)) (sqarg nm m (abs2 f2)) d = ccorr_complex W al f1 f2 t1 t2 n (Some nm) (Some m) None None d.
  Proof.
    intros Hm HN. unfold ccorr_complex, ccorr_gen. replace (_default_method (Some m) n) with (@Ok string m) by (destruct Hm as [->|[->| ->]]; reflexivity).
    cbn [bind]. rewrite HN. cbn [bind]. unfold CallPairs.sqarg. destruct (has_flag nm NORM_STRUCTURED && negb (String.eqb m "diff"))%bool; reflexivity.
  Qed.
  Lemma acorr_squares al m nm (f : list C) t n d : m = "corr" \/ m = "fft" \/ m = "diff" -> _default_norm (Some nm) m false = Ok nm ->
    acorr W al f t (sqarg nm m (abs2 f)) n (Some nm) (Some m) d = acorr W al f t None n (Some nm) (Some m) d.
  Proof.
    intros Hm HN. unfold acorr, acorr_gen. replace (_default_method (Some m) n) with (@Ok string m) by (destruct Hm as [->|[->| ->]]; reflexivity).
    cbn [bind]. rewrite HN. cbn [bind]. unfold CallPairs.sqarg. destruct (has_flag nm NORM_STRUCTURED && negb (String.eqb m "diff"))%bool; reflexivity.
  Qed.
  Lemma acorr_complex_squares al m nm (f : list C) t n d : m = "corr" \/ m = "fft" \/ m = "diff" -> _default_norm (Some nm) m false = Ok nm ->
    acorr_complex W al f t (sqarg nm m (abs2 f)) n (Some nm) (Some m) d = acorr_complex W al f t None n (Some nm) (Some m) d.
  Proof.
    intros Hm HN. unfold acorr_complex, acorr_gen. replace (_default_method (Some m) n) with (@Ok string m) by (destruct Hm as [->|[->| ->]]; reflexivity).
    cbn [bind]. rewrite HN. cbn [bind]. unfold CallPairs.sqarg. destruct (has_flag nm NORM_STRUCTURED && negb (String.eqb m "diff"))%bool; reflexivity.
  Qed.

  Theorem call_ccorr_complex_fresh al m nm v1 v2 t1 t2 N : okc W m v1 v2 t1 t2 N -> m <> "diff" -> 0 < N -> _default_norm (Some nm) m true = Ok nm ->
    ccorr_complex W al (map fst v1) (map fst v2) t1 t2 (Some N) (Some nm) (Some m) (sqarg nm m (map snd v1)) (sqarg nm m (map snd v2)) None =
    Ok (add_pairs (V := cmon K) (@cx_prod K) (@first K) (@second K) (zeros (cmon K) (String.eqb m "diff") true nm (2 * N - 1))
          (fun i => sel (lag_cx N i) (samples v1 t1) (samples v2 t2))).
  Proof.
    intros HO Hd H0 HNm. rewrite <- (@call_ccorr_complex K W al m nm v1 v2 t1 t2 N N (zeros (cmon K) (String.eqb m "diff") true nm (2 * N - 1)) HO Hd H0 HNm (zeros_shaped _ _ _ _ _ _)).
    destruct HO as (Hne & HV & HM & HN).
    assert (HV' : valid_cross (map fst v1) (map fst v2) t1 t2) by (apply (@same_length_valid _ _ v1 v2); rewrite ?map_length; auto).
    assert (HN' : t1 = None -> N <= length (map fst v1) + 1) by (rewrite map_length; exact HN).
    set (L := 2 * N - 1).
    assert (RR : forall A (z : A) (b : bool), right_length (if b then Some (repeat z L) else None) L) by (intros A z []; cbn; [apply repeat_length|exact I]).
    destruct HM as [->|HM]; [contradiction|].
    assert (Ed : String.eqb m "diff" = false) by (destruct HM as [->|[-> _]]; reflexivity).
    destruct (given_sq nm m v1 Ed) as (q1 & G1 & _). destruct (given_sq nm m v2 Ed) as (q2 & G2 & _).
    unfold CallPairs.zeros. rewrite Ed.
    set (s := if has_flag nm NORM_SUBTRACTED then Some (repeat (c0 K) L) else None).
    set (r := if has_flag nm NORM_STRUCTURED then Some (repeat (f0 K) L) else None).
    assert (Em : _default_method (Some m) (Some N) = Ok m) by (apply method_given; destruct HM as [->|[-> _]]; auto).
    rewrite (@ccorr_complex_tuple_sq K W al _ _ t1 t2 (Some N) (Some nm) nm (Some m) m _ _ q1 q2 None None None None None None N);
      [|exact HV'|exact Em|exact HM|exact HNm|exact G1|exact G2|reflexivity|split; [reflexivity|exact I]|exact I|exact I|exact I|exact I|exact H0|exact HN'].
    rewrite (@ccorr_complex_tuple_sq K W al _ _ t1 t2 (Some N) (Some nm) nm (Some m) m _ _ q1 q2 (Some (DCorr (repeat (c0 K) L) (repeat 0 L) r s s)) (Some (repeat (c0 K) L)) (Some (repeat 0 L)) r s s N);
      [|exact HV'|exact Em|exact HM|exact HNm|exact G1|exact G2|reflexivity|split; [reflexivity|apply repeat_length]|apply repeat_length|apply RR|apply RR|apply RR|exact H0|exact HN'].
    unfold corr_tuple_sq, r, s. destruct (has_flag nm NORM_SUBTRACTED), (has_flag nm NORM_STRUCTURED); reflexivity.
  Qed.

  Theorem call_acorr_fresh al m nm v t n : oka W m v t n -> _default_norm (Some nm) m false = Ok nm ->
    acorr W al (map fst v) t (sqarg nm m (map snd v)) (Some n) (Some nm) (Some m) None =
    Ok (add_pairs (V := fmon K) (@rprod K m) (@halfsum K) (@halfsum K) (zeros (fmon K) (String.eqb m "diff") false nm n)
      (fun i => usel (lag_real i) (samples v t))).
  Proof.
    intros HO HNm. rewrite <- (@call_acorr K W al m nm v t n (zeros (fmon K) (String.eqb m "diff") false nm n) HO HNm (zeros_shaped _ _ _ _ _ _)).
    destruct HO as (Hne & HV & HD & HM & HN).
    assert (HV' : valid_auto (map fst v) t).
    { destruct t; [|exact I]. destruct HV. split; [rewrite map_length; auto|]. destruct v; [contradiction|discriminate]. }
    assert (HD' : distinct (samples (map fst v) t)) by (rewrite samples_map; apply distinct_val, HD).
    assert (HN' : t = None -> n <= length (map fst v) + 1) by (rewrite map_length; exact HN).
    assert (RR : forall A (z : A) (b : bool), right_length (if b then Some (repeat z n) else None) n) by (intros A z []; cbn; [apply repeat_length|exact I]).
    destruct HM as [->|HM].
    - pose proof (diff_norm_auto nm HNm) as HF. unfold CallPairs.zeros. cbn [String.eqb Ascii.eqb Bool.eqb]. rewrite HF.
      rewrite (@acorr_diff_tuple K W al _ t _ (Some n) (Some nm) nm None None None n);
        [|exact HV'|exact HNm|reflexivity|split; [reflexivity|exact I]|exact I|exact HN'].
      rewrite (@acorr_diff_tuple K W al _ t _ (Some n) (Some nm) nm (Some (DDiff (repeat (f0 K) n) (repeat 0 n) None None)) (Some (repeat (f0 K) n)) (Some (repeat 0 n)) n);
        [|exact HV'|exact HNm|reflexivity|split; [reflexivity|apply repeat_length]|apply repeat_length|exact HN'].
      reflexivity.
    - assert (Ed : String.eqb m "diff" = false) by (destruct HM as [->|[-> _]]; reflexivity).
      destruct (given_sq nm m v Ed) as (q1 & G1 & _). unfold CallPairs.zeros. rewrite Ed.
      set (s := if has_flag nm NORM_SUBTRACTED then Some (repeat (c0 K) n) else None).
      set (r := if has_flag nm NORM_STRUCTURED then Some (repeat (f0 K) n) else None).
      assert (Em : _default_method (Some m) (Some n) = Ok m) by (apply method_given; destruct HM as [->|[-> _]]; auto).
      rewrite (@acorr_tuple_real_sq K W al _ t _ q1 (Some n) (Some nm) nm (Some m) m None None None None None None n);
        [|exact HV'|exact HD'|exact Em|exact HM|exact HNm|exact G1|reflexivity|split; [reflexivity|exact I]|exact I|exact I|exact I|exact HN'].
      rewrite (@acorr_tuple_real_sq K W al _ t _ q1 (Some n) (Some nm) nm (Some m) m (Some (DCorr (repeat (f0 K) n) (repeat 0 n) r s None)) (Some (repeat (f0 K) n)) (Some (repeat 0 n)) r s None n);
        [|exact HV'|exact HD'|exact Em|exact HM|exact HNm|exact G1|reflexivity|split; [reflexivity|apply repeat_length]|apply repeat_length|apply RR|apply RR|exact HN'].
      unfold acorr_tuple_sq, r, s. destruct (has_flag nm NORM_SUBTRACTED), (has_flag nm NORM_STRUCTURED); reflexivity.
  Qed.
  Theorem call_acorr_complex_fresh al m nm v t n : oka W m v t n -> m <> "diff" -> _default_norm (Some nm) m false = Ok nm ->
    acorr_complex W al (map fst v) t (sqarg nm m (map snd v)) (Some n) (Some nm) (Some m) None =
    Ok (add_pairs (V := cmon K) (@cx_prod_ordered K) (@halfsum K) (@halfsum K) (zeros (cmon K) (String.eqb m "diff") false nm n)
      (fun i => usel (lag_real i) (samples v t))).
  Proof.
    intros HO Hd HNm. rewrite <- (@call_acorr_complex K W al m nm v t n (zeros (cmon K) (String.eqb m "diff") false nm n) HO Hd HNm (zeros_shaped _ _ _ _ _ _)).
    destruct HO as (Hne & HV & HD & HM & HN).
    assert (HV' : valid_auto (map fst v) t).
    { destruct t; [|exact I]. destruct HV. split; [rewrite map_length; auto|]. destruct v; [contradiction|discriminate]. }
    assert (HD' : distinct (samples (map fst v) t)) by (rewrite samples_map; apply distinct_val, HD).
    assert (HN' : t = None -> n <= length (map fst v) + 1) by (rewrite map_length; exact HN).
    assert (RR : forall A (z : A) (b : bool), right_length (if b then Some (repeat z n) else None) n) by (intros A z []; cbn; [apply repeat_length|exact I]).
    destruct HM as [->|HM]; [contradiction|].
    assert (Ed : String.eqb m "diff" = false) by (destruct HM as [->|[-> _]]; reflexivity).
    destruct (given_sq nm m v Ed) as (q1 & G1 & _). unfold CallPairs.zeros. rewrite Ed.
    set (s := if has_flag nm NORM_SUBTRACTED then Some (repeat (c0 K) n) else None).
    set (r := if has_flag nm NORM_STRUCTURED then Some (repeat (f0 K) n) else None).
    assert (Em : _default_method (Some m) (Some n) = Ok m) by (apply method_given; destruct HM as [->|[-> _]]; auto).
    rewrite (@acorr_tuple_complex_sq K W al _ t _ q1 (Some n) (Some nm) nm (Some m) m None None None None None None n);
      [|exact HV'|exact HD'|exact Em|exact HM|exact HNm|exact G1|reflexivity|split; [reflexivity|exact I]|exact I|exact I|exact I|exact HN'].
    rewrite (@acorr_tuple_complex_sq K W al _ t _ q1 (Some n) (Some nm) nm (Some m) m (Some (DCorr (repeat (c0 K) n) (repeat 0 n) r s None)) (Some (repeat (c0 K) n)) (Some (repeat 0 n)) r s None n);
      [|exact HV'|exact HD'|exact Em|exact HM|exact HNm|exact G1|reflexivity|split; [reflexivity|apply repeat_length]|apply repeat_length|apply RR|apply RR|exact HN'].
    unfold acorr_tuple_sq, r, s. destruct (has_flag nm NORM_SUBTRACTED), (has_flag nm NORM_STRUCTURED); reflexivity.
  Qed.

  (** Merging a fresh tuple of length [L] into one of length [crop] *)
  Lemma merge_pairs (V : CMon) (prod : sample C * sample C -> V) nm L crop d P : crop <= L -> shaped V false false nm crop d ->
    merge_auto V crop d (add_pairs prod (@first K) (@second K) (zeros V false true nm L) P) = Ok (add_pairs prod (@halfsum K) (@halfsum K) d P).
  Proof.
    intros Hc HS. unfold CallPairs.zeros.
    destruct d as [v c sq s1 s2|v c s1 s2|]; [|destruct HS; discriminate|contradiction].
    destruct HS as (_ & Lv & Lc & Hq & H1 & H2). rewrite andb_false_r in H2. apply opt_shaped_false in H2. subst s2.
    cbn [add_pairs merge_auto].
    rewrite (@add_to_cells K W V v _ (fun i => Sum V (P i) (fun p => prod (val p))) crop Lv);
      [|rewrite plus_cells_length, repeat_length; exact Hc|intros i Hi; apply nth_zero_cells; lia].
    cbn [bind].
    rewrite (@add_to_cells K W natmon c _ (fun i => length (P i)) crop Lc);
      [|rewrite plus_cells_length, repeat_length; exact Hc|intros i Hi; apply nth_zero_cells; lia].
    cbn [bind].
    match goal with |- bind ?x ?f = _ => transitivity (bind (Ok (option_map (fun q => plus_cells (fmon K) q (fun i => Sum (fmon K) (P i) (fun p => sqsum K (sqv p)))) sq)) f) end.
    { f_equal. destruct (has_flag nm NORM_STRUCTURED).
      - apply opt_shaped_true in Hq. destruct Hq as (q & -> & Lq). cbn [option_map add_to_opt]. rewrite map_id.
        rewrite (@add_to_cells K W (fmon K) q _ (fun i => Sum (fmon K) (P i) (fun p => sqsum K (sqv p))) crop Lq);
          [reflexivity|rewrite plus_cells_length, repeat_length; exact Hc|intros i Hi; apply nth_zero_cells; lia].
      - apply opt_shaped_false in Hq. subst sq. reflexivity. }
    cbn [bind].
    destruct (has_flag nm NORM_SUBTRACTED).
    - apply opt_shaped_true in H1. destruct H1 as (q & -> & Lq). cbn [option_map].
      match goal with |- bind ?x ?f = _ => transitivity (bind (Ok (Some (plus_cells (cmon K) q (fun i => Sum (cmon K) (P i) (fun p => ahalf (cgrp K) (first (val p))))))) f) end.
      { f_equal. apply add_half; auto. }
      cbn [bind].
      match goal with |- bind ?x ?f = _ => transitivity (bind (Ok (Some (plus_cells (cmon K) (plus_cells (cmon K) q (fun i => Sum (cmon K) (P i) (fun p => ahalf (cgrp K) (first (val p)))))
        (fun i => Sum (cmon K) (P i) (fun p => ahalf (cgrp K) (second (val p))))))) f) end.
      { f_equal. apply add_half; auto. rewrite plus_cells_length. exact Lq. }
      cbn [bind]. do 2 f_equal. f_equal. rewrite plus_cells_twice. apply plus_cells_eq. intros i. rewrite <- Sum_madd.
      apply Sum_ext. intros p _. symmetry. apply (ahalf_add (cgrp K)).
    - apply opt_shaped_false in H1. subst s1. reflexivity.
  Qed.

  (** The pairs of a later with an earlier chunk have negative delays, which the first
      [crop] cells of a complex correlation do not contain. *)
  Theorem call_merge_complex al m nm v1 v2 t1 t2 n crop d : okc W m v1 v2 (Some t1) (Some t2) n -> m <> "diff" -> _default_norm (Some nm) m true = Ok nm ->
    (forall a b, In a t1 -> In b t2 -> (b < a)%Z) -> 0 < crop <= n -> shaped (cmon K) false false nm crop d ->
    (let* o := ccorr_complex W al (map fst v1) (map fst v2) (Some t1) (Some t2) (Some n) (Some nm) (Some m)
                 (sqarg nm m (map snd v1)) (sqarg nm m (map snd v2)) None in merge_auto (cmon K) crop d o) =
    Ok (add_pairs (V := cmon K) (@cx_prod_ordered K) (@halfsum K) (@halfsum K) d (fun _ => [])).
  Proof.
    intros HO Hm HNm Ht Hc HS. rewrite (@call_ccorr_complex_fresh al m nm v1 v2 _ _ n HO Hm ltac:(lia) HNm). cbn [bind].
    assert (Ed : String.eqb m "diff" = false) by (apply String.eqb_neq; exact Hm). rewrite Ed.
    rewrite merge_pairs by (try exact HS; lia).
    set (P := fun i => sel (lag_cx n i) (samples v1 (Some t1)) (samples v2 (Some t2))).
    assert (HP : forall i, i < crop -> P i = []).
    { intros i Hi. unfold P, sel. rewrite <- (filter_none (list_prod (samples v1 (Some t1)) (samples v2 (Some t2)))). apply filter_ext_in.
      intros [[x a] [y b]] Hp. apply in_prod_iff in Hp. destruct Hp as [Ha Hb]. cbn [samples] in Ha, Hb.
      apply in_combine_r in Ha. apply in_combine_r in Hb. specialize (Ht a b Ha Hb).
      unfold lag_cx, lag_at, delay. cbn [fst snd]. replace (i <? n) with true by lia. lia. }
    destruct d as [v c sq s1 s2|v c s1 s2|]; [|destruct HS; discriminate|contradiction].
    destruct HS as (_ & Lv & Lc & Hq & H1 & H2). rewrite andb_false_r in H2. apply opt_shaped_false in H2. subst s2. cbn [add_pairs option_map].
    assert (HM : forall X (M : CMon) (q : list M) (g : list X -> M) (Q : nat -> list X), length q = crop -> (forall i, i < crop -> Q i = []) ->
      plus_cells M q (fun i => g (Q i)) = plus_cells M q (fun i => g [])).
    { intros X M q g Q Lq HQ. apply plus_cells_ext. intros i Hi. rewrite HQ by lia. reflexivity. }
    f_equal. f_equal.
    - etransitivity; [exact (@HM _ (cmon K) v (fun l => Sum (cmon K) l (fun p => cx_prod (val p))) P Lv HP)|reflexivity].
    - exact (@HM _ natmon c (@length _) P Lc HP).
    - destruct sq as [q|]; [|reflexivity]. destruct Hq as [_ Lq]. cbn [option_map]. f_equal.
      exact (@HM _ (fmon K) q (fun l => Sum (fmon K) l (fun p => sqsum K (sqv p))) P Lq HP).
    - destruct s1 as [q|]; [|reflexivity]. destruct H1 as [_ Lq]. cbn [option_map]. f_equal.
      exact (@HM _ (cmon K) q (fun l => Sum (cmon K) l (fun p => halfsum (val p))) P Lq HP).
  Qed.
End Fresh.
