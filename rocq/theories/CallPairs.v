(** The calls of ccorr and acorr made while streaming, as accumulators of pairs. *)
From Verif Require Import Base Kernels PairSpec KernelProofs PairLemmas RegularProofs CoreModel FftModel CoreProofs CoreProofs2 CoreApi
  NormModel CorrModel CorrSpec CorrProofs CorrProofs2 PairAcc PairTuple StreamModel.
From Coq Require Import String ZifyBool ZifyNat.
Open Scope string_scope.
Open Scope nat_scope.
Open Scope list_scope.
Local Notation length := List.length.
Set Implicit Arguments.

(** The delays that are counted in cell [i] *)
Definition lag_real (i : nat) (d : Z) : bool := (Z.abs d =? Z.of_nat i)%Z.
Definition lag_cx (N i : nat) (d : Z) : bool := (d =? lag_at N i)%Z.

Section Calls.
  Variable K : Fld.
  Notation C := (Cx K).
  Variable W : nat -> Cx K.

  (** The squares that are passed along if the norm needs them *)
  Definition sqarg (nm : Z) (m : string) (s : list K) : option (list K) :=
    if (has_flag nm NORM_STRUCTURED && negb (String.eqb m "diff"))%bool then Some s else None.
  (** The product that the method sums *)
  Definition rprod (m : string) := if String.eqb m "diff" then @sq_diff K else @re_prod K.

  Definition okc (m : string) (v1 v2 : list (C * K)) (t1 t2 : option (list Z)) (N : nat) : Prop :=
    v1 <> [] /\ valid_cross v1 v2 t1 t2 /\ (m = "diff" \/ method_ok W m (map fst v1) (map fst v2) t1 t2 N) /\
    (t1 = None -> N <= length v1 + 1).
  Definition oka (m : string) (v : list (C * K)) (t : option (list Z)) (N : nat) : Prop :=
    v <> [] /\ valid_auto v t /\ distinct (samples v t) /\ (m = "diff" \/ method_ok_auto W m (map fst v) t N) /\
    (t = None -> N <= length v + 1).

  Lemma sel_val q (X Y : list (sample (C * K))) : sel q (map (map_val fst) X) (map (map_val fst) Y) = map (@val K) (sel q X Y).
  Proof. apply sel_map. reflexivity. Qed.
  Lemma sel_sqv q (X Y : list (sample (C * K))) : sel q (map (map_val snd) X) (map (map_val snd) Y) = map (@sqv K) (sel q X Y).
  Proof. apply sel_map. reflexivity. Qed.
  Lemma usel_val q (X : list (sample (C * K))) : usel q (map (map_val fst) X) = map (@val K) (usel q X).
  Proof. apply usel_map. reflexivity. Qed.
  Lemma usel_sqv q (X : list (sample (C * K))) : usel q (map (map_val snd) X) = map (@sqv K) (usel q X).
  Proof. apply usel_map. reflexivity. Qed.

  Lemma given_sq nm m (v : list (C * K)) : String.eqb m "diff" = false ->
    exists s, given_squares (map fst v) (sqarg nm m (map snd v)) s /\ (has_flag nm NORM_STRUCTURED = true -> s = map snd v).
  Proof.
    intros E. unfold sqarg. rewrite E. destruct (has_flag nm NORM_STRUCTURED); cbn.
    - exists (map snd v). split; [|auto]. left. rewrite !map_length. auto.
    - exists (abs2 (map fst v)). split; [|discriminate]. right. auto.
  Qed.
  Lemma method_given m n : m = "diff" \/ m = "corr" \/ m = "fft" -> _default_method (Some m) n = Ok m.
  Proof. intros [->|[->| ->]]; reflexivity. Qed.
  Lemma opt_shaped_len A b L (o : option (list A)) : opt_shaped b L o -> right_length o L.
  Proof. destruct o; cbn; [tauto|auto]. Qed.
  Lemma opt_shaped_false A L (o : option (list A)) : opt_shaped false L o -> o = None.
  Proof. destruct o; cbn; [intros [H _]; discriminate|auto]. Qed.
  Lemma opt_shaped_true A L (o : option (list A)) : opt_shaped true L o -> exists q, o = Some q /\ length q = L.
  Proof. destruct o as [q|]; cbn; [intros [_ H]; eauto|discriminate]. Qed.

  (** The tuple of the theorems about ccorr, in terms of pairs that carry squares *)
  Lemma tuple_add (V : CMon) (prod : sample C * sample C -> V) nm L v c sq s1 s2 P' (Q' : nat -> list (sample K * sample K)) P :
    shaped V false true nm L (DCorr v c sq s1 s2) ->
    (forall i, P' i = map (@val K) (P i)) -> (has_flag nm NORM_STRUCTURED = true -> forall i, Q' i = map (@sqv K) (P i)) ->
    corr_tuple_sq (plus_cells V (start (m0 V) (Some v) L) (fun i => Sum V (P' i) prod)) (Some c) sq s1 s2 L nm P' Q' =
    add_pairs prod (@first K) (@second K) (DCorr v c sq s1 s2) P.
  Proof.
    intros (_ & Lv & Lc & Hq & H1 & H2) HP HQ. unfold corr_tuple_sq. cbn [start add_pairs]. rewrite andb_true_r in H2.
    assert (HS : forall (M : CMon) (q : list M) g, plus_cells M q (fun i => Sum M (P' i) g) = plus_cells M q (fun i => Sum M (P i) (fun p => g (val p)))).
    { intros M q g. apply plus_cells_eq. intros i. rewrite HP. apply Sum_map. }
    f_equal.
    - apply HS.
    - apply plus_cells_eq. intros i. rewrite HP. apply map_length.
    - destruct (has_flag nm NORM_STRUCTURED).
      + apply opt_shaped_true in Hq. destruct Hq as (q & -> & _). cbn [start option_map]. f_equal. apply plus_cells_eq.
        intros i. rewrite HQ by reflexivity. apply Sum_map.
      + apply opt_shaped_false in Hq. subst. reflexivity.
    - destruct (has_flag nm NORM_SUBTRACTED).
      + apply opt_shaped_true in H1. destruct H1 as (q & -> & _). cbn [start option_map]. f_equal. apply (HS (cmon K)).
      + apply opt_shaped_false in H1. subst. reflexivity.
    - destruct (has_flag nm NORM_SUBTRACTED).
      + apply opt_shaped_true in H2. destruct H2 as (q & -> & _). cbn [start option_map]. f_equal. apply (HS (cmon K)).
      + apply opt_shaped_false in H2. subst. reflexivity.
  Qed.

  Theorem call_ccorr al m nm v1 v2 t1 t2 n N d : okc m v1 v2 t1 t2 N -> _default_norm (Some nm) m true = Ok nm ->
    shaped (fmon K) (String.eqb m "diff") true nm N d ->
    ccorr W al (map fst v1) (map fst v2) t1 t2 (Some n) (Some nm) (Some m) (sqarg nm m (map snd v1)) (sqarg nm m (map snd v2)) (Some d) =
    Ok (add_pairs (V := fmon K) (rprod m) (@first K) (@second K) d (fun i => sel (lag_real i) (samples v1 t1) (samples v2 t2))).
  Proof.
    intros (Hne & HV & HM & HN) HNm HS. rewrite (@ccorr_n K W al _ _ t1 t2 n N nm m _ _ d _ N HS).
    assert (HV' : valid_cross (map fst v1) (map fst v2) t1 t2) by (apply (@same_length_valid _ _ v1 v2); rewrite ?map_length; auto).
    assert (HN' : t1 = None -> N <= length (map fst v1) + 1) by (rewrite map_length; exact HN).
    destruct HM as [->|HM].
    - destruct d as [v c sq s1 s2|v c s1 s2|]; cbn [shaped String.eqb Ascii.eqb Bool.eqb] in HS; [destruct HS; discriminate| |contradiction].
      destruct HS as (_ & Lv & Lc & H1 & H2). rewrite andb_true_r in H2.
      rewrite (@ccorr_diff_tuple K W al _ _ t1 t2 (Some N) (Some nm) nm _ _ (Some (DDiff v c s1 s2)) (Some v) (Some c) None s1 s2 N);
        [|exact HV'|exact HNm|reflexivity|split; [reflexivity|exact Lv]|exact Lc|exact (opt_shaped_len _ _ _ H1)|exact (opt_shaped_len _ _ _ H2)|exact HN'].
      cbn [start add_pairs]. unfold rprod. cbn [String.eqb Ascii.eqb Bool.eqb]. rewrite !samples_map.
      assert (HP : forall i, pairs_at i (map (map_val fst) (samples v1 t1)) (map (map_val fst) (samples v2 t2)) =
        map (@val K) (sel (lag_real i) (samples v1 t1) (samples v2 t2))) by (intros; apply (sel_val (lag_real i))).
      assert (HSum : forall (M : CMon) (q : list M) g, plus_cells M q (fun i => Sum M (pairs_at i (map (map_val fst) (samples v1 t1)) (map (map_val fst) (samples v2 t2))) g) =
        plus_cells M q (fun i => Sum M (sel (lag_real i) (samples v1 t1) (samples v2 t2)) (fun p => g (val p)))).
      { intros M q g. apply plus_cells_eq. intros i. rewrite HP. apply Sum_map. }
      f_equal. f_equal.
      + apply (HSum (fmon K)).
      + apply plus_cells_eq. intros i. rewrite HP. apply map_length.
      + destruct (has_flag nm NORM_SUBTRACTED).
        * apply opt_shaped_true in H1. destruct H1 as (q & -> & _). cbn [start option_map]. f_equal. apply (HSum (cmon K)).
        * apply opt_shaped_false in H1. subst. reflexivity.
      + destruct (has_flag nm NORM_SUBTRACTED).
        * apply opt_shaped_true in H2. destruct H2 as (q & -> & _). cbn [start option_map]. f_equal. apply (HSum (cmon K)).
        * apply opt_shaped_false in H2. subst. reflexivity.
    - assert (Ed : String.eqb m "diff" = false) by (destruct HM as [->|[-> _]]; reflexivity). rewrite Ed in HS.
      destruct (given_sq nm m v1 Ed) as (q1 & G1 & E1). destruct (given_sq nm m v2 Ed) as (q2 & G2 & E2).
      destruct d as [v c sq s1 s2|v c s1 s2|]; [|destruct HS; discriminate|contradiction].
      assert (HS0 := HS). destruct HS as (_ & Lv & Lc & Hq & H1 & H2). rewrite andb_true_r in H2.
      rewrite (@ccorr_tuple_sq K W al _ _ t1 t2 (Some N) (Some nm) nm (Some m) m _ _ q1 q2 (Some (DCorr v c sq s1 s2)) (Some v) (Some c) sq s1 s2 N);
        [|exact HV'|apply method_given; destruct HM as [->|[-> _]]; auto|exact HM|exact HNm|exact G1|exact G2|reflexivity|split; [reflexivity|exact Lv]
         |exact Lc|exact (opt_shaped_len _ _ _ Hq)|exact (opt_shaped_len _ _ _ H1)|exact (opt_shaped_len _ _ _ H2)|exact HN'].
      f_equal. unfold rprod. rewrite Ed.
      apply (@tuple_add (fmon K) (@re_prod K) nm N v c sq s1 s2); [exact HS0| |].
      + intros i. rewrite !samples_map. apply (sel_val (lag_real i)).
      + intros F i. rewrite (E1 F), (E2 F), !samples_map. apply (sel_sqv (lag_real i)).
  Qed.

  Theorem call_ccorr_complex al m nm v1 v2 t1 t2 n N d : okc m v1 v2 t1 t2 N -> m <> "diff" -> 0 < N -> _default_norm (Some nm) m true = Ok nm ->
    shaped (cmon K) (String.eqb m "diff") true nm (2 * N - 1) d ->
    ccorr_complex W al (map fst v1) (map fst v2) t1 t2 (Some n) (Some nm) (Some m) (sqarg nm m (map snd v1)) (sqarg nm m (map snd v2)) (Some d) =
    Ok (add_pairs (V := cmon K) (@cx_prod K) (@first K) (@second K) d (fun i => sel (lag_cx N i) (samples v1 t1) (samples v2 t2))).
  Proof.
    intros (Hne & HV & HM & HN) Hd H0 HNm HS. rewrite (@ccorr_complex_n K W al _ _ t1 t2 n N nm m _ _ d _ _ HS).
    assert (HV' : valid_cross (map fst v1) (map fst v2) t1 t2) by (apply (@same_length_valid _ _ v1 v2); rewrite ?map_length; auto).
    assert (HN' : t1 = None -> N <= length (map fst v1) + 1) by (rewrite map_length; exact HN).
    destruct HM as [|HM]; [contradiction|].
    assert (Ed : String.eqb m "diff" = false) by (destruct HM as [->|[-> _]]; reflexivity). rewrite Ed in HS.
    destruct (given_sq nm m v1 Ed) as (q1 & G1 & E1). destruct (given_sq nm m v2 Ed) as (q2 & G2 & E2).
    destruct d as [v c sq s1 s2|v c s1 s2|]; [|destruct HS; discriminate|contradiction].
    assert (HS0 := HS). destruct HS as (_ & Lv & Lc & Hq & H1 & H2). rewrite andb_true_r in H2.
    rewrite (@ccorr_complex_tuple_sq K W al _ _ t1 t2 (Some N) (Some nm) nm (Some m) m _ _ q1 q2 (Some (DCorr v c sq s1 s2)) (Some v) (Some c) sq s1 s2 N);
      [|exact HV'|apply method_given; destruct HM as [->|[-> _]]; auto|exact HM|exact HNm|exact G1|exact G2|reflexivity|split; [reflexivity|exact Lv]
       |exact Lc|exact (opt_shaped_len _ _ _ Hq)|exact (opt_shaped_len _ _ _ H1)|exact (opt_shaped_len _ _ _ H2)|exact H0|exact HN'].
    f_equal. apply (@tuple_add (cmon K) (@cx_prod K) nm (2 * N - 1) v c sq s1 s2); [exact HS0| |].
    - intros i. rewrite !samples_map. apply (sel_val (lag_cx N i)).
    - intros F i. rewrite (E1 F), (E2 F), !samples_map. apply (sel_sqv (lag_cx N i)).
  Qed.

  (** ** acorr *)
  Lemma inspect_auto_n l t n n' al :
    _inspect_auto_arguments l t (Some n) al = (let* (ts, _) := _inspect_auto_arguments l t (Some n') al in Ok (ts, n)).
  Proof. unfold _inspect_auto_arguments. destruct t; cbn [bind]; [|reflexivity]. destruct (zmin_list l0); reflexivity. Qed.

  Lemma distinct_val A B (f : A -> B) (d : list (sample A)) : distinct d -> distinct (map (map_val f) d).
  Proof. unfold distinct. rewrite map_map. cbn. auto. Qed.

  Lemma tuple_add_auto (V : CMon) (prod : sample C * sample C -> V) g2 nm L v c sq s1 s2 P' (Q' : nat -> list (sample K * sample K)) P :
    shaped V false false nm L (DCorr v c sq s1 s2) ->
    (forall i, P' i = map (@val K) (P i)) -> (has_flag nm NORM_STRUCTURED = true -> forall i, Q' i = map (@sqv K) (P i)) ->
    acorr_tuple_sq (plus_cells V (start (m0 V) (Some v) L) (fun i => Sum V (P' i) prod)) (Some c) sq s1 L nm P' Q' =
    add_pairs prod (@halfsum K) g2 (DCorr v c sq s1 s2) P.
  Proof.
    intros (_ & Lv & Lc & Hq & H1 & H2) HP HQ. unfold acorr_tuple_sq. cbn [start add_pairs]. rewrite andb_false_r in H2.
    apply opt_shaped_false in H2. subst s2. cbn [option_map].
    assert (HS : forall (M : CMon) (q : list M) g, plus_cells M q (fun i => Sum M (P' i) g) = plus_cells M q (fun i => Sum M (P i) (fun p => g (val p)))).
    { intros M q g. apply plus_cells_eq. intros i. rewrite HP. apply Sum_map. }
    f_equal.
    - apply HS.
    - apply plus_cells_eq. intros i. rewrite HP. apply map_length.
    - destruct (has_flag nm NORM_STRUCTURED).
      + apply opt_shaped_true in Hq. destruct Hq as (q & -> & _). cbn [start option_map]. f_equal. apply plus_cells_eq.
        intros i. rewrite HQ by reflexivity. apply Sum_map.
      + apply opt_shaped_false in Hq. subst. reflexivity.
    - destruct (has_flag nm NORM_SUBTRACTED).
      + apply opt_shaped_true in H1. destruct H1 as (q & -> & _). cbn [start option_map]. f_equal. apply (HS (cmon K)).
      + apply opt_shaped_false in H1. subst. reflexivity.
  Qed.

  Lemma diff_norm_auto nm nm' : _default_norm (Some nm) "diff" false = Ok nm' -> has_flag nm NORM_SUBTRACTED = false.
  Proof.
    unfold _default_norm. cbn [String.eqb Ascii.eqb Bool.eqb]. intros H.
    match type of H with context [in_list nm ?l] => destruct (in_list nm l) eqn:E; [|discriminate] end.
    unfold in_list in E. cbn [existsb] in E. rewrite orb_false_r in E. apply Z.eqb_eq in E. subst nm. reflexivity.
  Qed.

  Theorem call_acorr al m nm v t n d : oka m v t n -> _default_norm (Some nm) m false = Ok nm ->
    shaped (fmon K) (String.eqb m "diff") false nm n d ->
    acorr W al (map fst v) t (sqarg nm m (map snd v)) (Some n) (Some nm) (Some m) (Some d) =
    Ok (add_pairs (V := fmon K) (rprod m) (@halfsum K) (@halfsum K) d (fun i => usel (lag_real i) (samples v t))).
  Proof.
    intros (Hne & HV & HD & HM & HN) HNm HS.
    assert (HV' : valid_auto (map fst v) t).
    { destruct t; [|exact I]. destruct HV. split; [rewrite map_length; auto|]. destruct v; [contradiction|discriminate]. }
    assert (HD' : distinct (samples (map fst v) t)) by (rewrite samples_map; apply distinct_val, HD).
    assert (HN' : t = None -> n <= length (map fst v) + 1) by (rewrite map_length; exact HN).
    destruct HM as [->|HM].
    - pose proof (diff_norm_auto nm HNm) as HF.
      destruct d as [w c sq s1 s2|w c s1 s2|]; cbn [shaped String.eqb Ascii.eqb Bool.eqb] in HS; [destruct HS; discriminate| |contradiction].
      destruct HS as (_ & Lv & Lc & H1 & H2). rewrite HF in H1, H2. apply opt_shaped_false in H1, H2. subst s1 s2.
      rewrite (@acorr_diff_tuple K W al _ t _ (Some n) (Some nm) nm (Some (DDiff w c None None)) (Some w) (Some c) n);
        [|exact HV'|exact HNm|reflexivity|split; [reflexivity|exact Lv]|exact Lc|exact HN'].
      cbn [start add_pairs option_map]. unfold rprod. cbn [String.eqb Ascii.eqb Bool.eqb]. rewrite !samples_map.
      assert (HP : forall i, upairs_at i (map (map_val fst) (samples v t)) = map (@val K) (usel (lag_real i) (samples v t))) by (intros; apply (usel_val (lag_real i))).
      f_equal. f_equal; apply plus_cells_eq; intros i; rewrite HP; [apply Sum_map|apply map_length].
    - assert (Ed : String.eqb m "diff" = false) by (destruct HM as [->|[-> _]]; reflexivity). rewrite Ed in HS.
      destruct (given_sq nm m v Ed) as (q1 & G1 & E1).
      destruct d as [w c sq s1 s2|w c s1 s2|]; [|destruct HS; discriminate|contradiction].
      assert (HS0 := HS). destruct HS as (_ & Lv & Lc & Hq & H1 & H2).
      rewrite (@acorr_tuple_real_sq K W al _ t _ q1 (Some n) (Some nm) nm (Some m) m (Some (DCorr w c sq s1 s2)) (Some w) (Some c) sq s1 s2 n);
        [|exact HV'|exact HD'|apply method_given; destruct HM as [->|[-> _]]; auto|exact HM|exact HNm|exact G1|reflexivity|split; [reflexivity|exact Lv]
         |exact Lc|exact (opt_shaped_len _ _ _ Hq)|exact (opt_shaped_len _ _ _ H1)|exact HN'].
      f_equal. unfold rprod. rewrite Ed.
      apply (@tuple_add_auto (fmon K) (@re_prod K) (@halfsum K) nm n w c sq s1 s2); [exact HS0| |].
      + intros i. rewrite !samples_map. apply (usel_val (lag_real i)).
      + intros F i. rewrite (E1 F), !samples_map. apply (usel_sqv (lag_real i)).
  Qed.
  Theorem call_acorr_complex al m nm v t n d : oka m v t n -> m <> "diff" -> _default_norm (Some nm) m false = Ok nm ->
    shaped (cmon K) (String.eqb m "diff") false nm n d ->
    acorr_complex W al (map fst v) t (sqarg nm m (map snd v)) (Some n) (Some nm) (Some m) (Some d) =
    Ok (add_pairs (V := cmon K) (@cx_prod_ordered K) (@halfsum K) (@halfsum K) d (fun i => usel (lag_real i) (samples v t))).
  Proof.
    intros (Hne & HV & HD & HM & HN) Hd HNm HS.
    assert (HV' : valid_auto (map fst v) t).
    { destruct t; [|exact I]. destruct HV. split; [rewrite map_length; auto|]. destruct v; [contradiction|discriminate]. }
    assert (HD' : distinct (samples (map fst v) t)) by (rewrite samples_map; apply distinct_val, HD).
    assert (HN' : t = None -> n <= length (map fst v) + 1) by (rewrite map_length; exact HN).
    destruct HM as [|HM]; [contradiction|].
    assert (Ed : String.eqb m "diff" = false) by (destruct HM as [->|[-> _]]; reflexivity). rewrite Ed in HS.
    destruct (given_sq nm m v Ed) as (q1 & G1 & E1).
    destruct d as [w c sq s1 s2|w c s1 s2|]; [|destruct HS; discriminate|contradiction].
    assert (HS0 := HS). destruct HS as (_ & Lv & Lc & Hq & H1 & H2).
    rewrite (@acorr_tuple_complex_sq K W al _ t _ q1 (Some n) (Some nm) nm (Some m) m (Some (DCorr w c sq s1 s2)) (Some w) (Some c) sq s1 s2 n);
      [|exact HV'|exact HD'|apply method_given; destruct HM as [->|[-> _]]; auto|exact HM|exact HNm|exact G1|reflexivity|split; [reflexivity|exact Lv]
       |exact Lc|exact (opt_shaped_len _ _ _ Hq)|exact (opt_shaped_len _ _ _ H1)|exact HN'].
    f_equal. 
    apply (@tuple_add_auto (cmon K) (@cx_prod_ordered K) (@halfsum K) nm n w c sq s1 s2); [exact HS0| |].
    + intros i. rewrite !samples_map. apply (usel_val (lag_real i)).
    + intros F i. rewrite (E1 F), !samples_map. apply (usel_sqv (lag_real i)).
  Qed.

  (** ** Fresh tuples *)
  (** A tuple of zeros *)
  Definition zeros (V : CMon) (diff cross : bool) (nm : Z) (L : nat) : cdata K V :=
    let m1 := if has_flag nm NORM_SUBTRACTED then Some (repeat (c0 K) L) else None in
    let m2 := if cross then m1 else None in
    if diff then DDiff (repeat (m0 V) L) (repeat 0 L) m1 m2
    else DCorr (repeat (m0 V) L) (repeat 0 L) (if has_flag nm NORM_STRUCTURED then Some (repeat (f0 K) L) else None) m1 m2.
  Lemma zeros_shaped V diff cross nm L : shaped V diff cross nm L (zeros V diff cross nm L).
  Proof.
    unfold zeros. destruct diff; cbn [shaped]; destruct (has_flag nm NORM_STRUCTURED), (has_flag nm NORM_SUBTRACTED), cross; cbn;
      repeat split; try apply repeat_length.
  Qed.
  Lemma init_row_zeros V complex cross diff nm n :
    init_row K V complex cross (negb diff) nm n = zeros V diff cross nm (if (complex && cross)%bool then 2 * n - 1 else n).
  Proof. unfold init_row, zeros. destruct diff; reflexivity. Qed.
  Lemma correlate_m (m : string) : negb (negb (String.eqb m "diff")) = String.eqb m "diff".
  Proof. apply negb_involutive. Qed.

  (** Without an output array ccorr starts from zeros. *)
  Theorem call_ccorr_fresh al m nm v1 v2 t1 t2 N : okc m v1 v2 t1 t2 N -> _default_norm (Some nm) m true = Ok nm ->
    ccorr W al (map fst v1) (map fst v2) t1 t2 (Some N) (Some nm) (Some m) (sqarg nm m (map snd v1)) (sqarg nm m (map snd v2)) None =
    Ok (add_pairs (V := fmon K) (rprod m) (@first K) (@second K) (zeros (fmon K) (String.eqb m "diff") true nm N)
          (fun i => sel (lag_real i) (samples v1 t1) (samples v2 t2))).
  Proof.
    intros HO HNm. rewrite <- (@call_ccorr al m nm v1 v2 t1 t2 N N (zeros (fmon K) (String.eqb m "diff") true nm N) HO HNm (zeros_shaped _ _ _ _ _)).
    destruct HO as (Hne & HV & HM & HN).
    assert (HV' : valid_cross (map fst v1) (map fst v2) t1 t2) by (apply (@same_length_valid _ _ v1 v2); rewrite ?map_length; auto).
    assert (HN' : t1 = None -> N <= length (map fst v1) + 1) by (rewrite map_length; exact HN).
    assert (RR : forall A (z : A) (b : bool), right_length (if b then Some (repeat z N) else None) N) by (intros A z []; cbn; [apply repeat_length|exact I]).
    destruct HM as [->|HM].
    - unfold zeros. cbn [String.eqb Ascii.eqb Bool.eqb].
      set (s := if has_flag nm NORM_SUBTRACTED then Some (repeat (c0 K) N) else None).
      rewrite (@ccorr_diff_tuple K W al _ _ t1 t2 (Some N) (Some nm) nm _ _ None None None None None None N);
        [|exact HV'|exact HNm|reflexivity|split; [reflexivity|exact I]|exact I|exact I|exact I|exact HN'].
      rewrite (@ccorr_diff_tuple K W al _ _ t1 t2 (Some N) (Some nm) nm _ _ (Some (DDiff (repeat (f0 K) N) (repeat 0 N) s s)) (Some (repeat (f0 K) N)) (Some (repeat 0 N)) None s s N);
        [|exact HV'|exact HNm|reflexivity|split; [reflexivity|apply repeat_length]|apply repeat_length|apply RR|apply RR|exact HN'].
      unfold s. destruct (has_flag nm NORM_SUBTRACTED); reflexivity.
    - assert (Ed : String.eqb m "diff" = false) by (destruct HM as [->|[-> _]]; reflexivity).
      destruct (given_sq nm m v1 Ed) as (q1 & G1 & _). destruct (given_sq nm m v2 Ed) as (q2 & G2 & _).
      unfold zeros. rewrite Ed.
      set (s := if has_flag nm NORM_SUBTRACTED then Some (repeat (c0 K) N) else None).
      set (r := if has_flag nm NORM_STRUCTURED then Some (repeat (f0 K) N) else None).
      assert (Em : _default_method (Some m) (Some N) = Ok m) by (apply method_given; destruct HM as [->|[-> _]]; auto).
      rewrite (@ccorr_tuple_sq K W al _ _ t1 t2 (Some N) (Some nm) nm (Some m) m _ _ q1 q2 None None None None None None N);
        [|exact HV'|exact Em|exact HM|exact HNm|exact G1|exact G2|reflexivity|split; [reflexivity|exact I]|exact I|exact I|exact I|exact I|exact HN'].
      rewrite (@ccorr_tuple_sq K W al _ _ t1 t2 (Some N) (Some nm) nm (Some m) m _ _ q1 q2 (Some (DCorr (repeat (f0 K) N) (repeat 0 N) r s s)) (Some (repeat (f0 K) N)) (Some (repeat 0 N)) r s s N);
        [|exact HV'|exact Em|exact HM|exact HNm|exact G1|exact G2|reflexivity|split; [reflexivity|apply repeat_length]|apply repeat_length|apply RR|apply RR|apply RR|exact HN'].
      unfold corr_tuple_sq, r, s. destruct (has_flag nm NORM_SUBTRACTED), (has_flag nm NORM_STRUCTURED); reflexivity.
  Qed.

  (** Adding the pairs across chunks to the tuple of the auto-correlation. *)
  Lemma add_to_cells (M : CMon) (a b : list M) f n : length a = n -> n <= length b -> (forall i, i < n -> nth i b (m0 M) = f i) ->
    add_to M a (firstn n b) = Ok (plus_cells M a f).
  Proof.
    intros Ha Hb Hf. unfold add_to. rewrite firstn_length, Ha, Nat.min_l, Nat.eqb_refl by exact Hb. f_equal.
    assert (LL : length (map (fun p => madd M (fst p) (snd p)) (combine a (firstn n b))) = n)
      by (rewrite map_length, combine_length, firstn_length; lia).
    apply list_nth_ext with (d := m0 M).
    - rewrite LL, plus_cells_length. auto.
    - rewrite LL. intros i Hi. rewrite nth_plus_cells by lia.
      rewrite nth_indep with (d' := (fun p => madd M (fst p) (snd p)) (m0 M, m0 M)) by lia.
      rewrite (map_nth (fun p => madd M (fst p) (snd p))), combine_nth by (rewrite firstn_length; lia). cbn [fst snd].
      f_equal. rewrite nth_firstn by exact Hi. apply Hf, Hi.
  Qed.
  Lemma nth_zero_cells (M : CMon) n f i : i < n -> nth i (plus_cells M (repeat (m0 M) n) f) (m0 M) = f i.
  Proof. intros H. rewrite nth_plus_cells by (rewrite repeat_length; exact H). rewrite nth_repeat. apply madd_0_l. Qed.

  Lemma add_half X (q : list C) n crop (P : nat -> list X) (g : X -> C) : length q = crop -> crop <= n ->
    add_to_opt (cmon K) (ahalf (cgrp K)) crop (Some q) (Some (plus_cells (cmon K) (repeat (c0 K) n) (fun i => Sum (cmon K) (P i) g))) =
    Ok (Some (plus_cells (cmon K) q (fun i => Sum (cmon K) (P i) (fun p => ahalf (cgrp K) (g p))))).
  Proof.
    intros Lq Hc. cbn [add_to_opt].
    set (b := plus_cells (cmon K) (repeat (c0 K) n) (fun i => Sum (cmon K) (P i) g)).
    assert (E : map (ahalf (cgrp K)) (firstn crop b) = firstn crop (map (ahalf (cgrp K)) b)) by (symmetry; apply firstn_map).
    etransitivity; [apply (f_equal (fun x => bind (add_to (cmon K) q x) (fun r => Ok (Some r)))); exact E|].
    etransitivity; [apply (f_equal (fun x => bind x (fun r => Ok (Some r)))); apply (@add_to_cells (cmon K) q _ (fun i => Sum (cmon K) (P i) (fun p => ahalf (cgrp K) (g p))) crop Lq)|].
    - rewrite map_length. unfold b. rewrite plus_cells_length, repeat_length. exact Hc.
    - intros i Hi. replace (m0 (cmon K)) with (ahalf (cgrp K) (m0 (cmon K))) by exact (ahalf_0 (cgrp K)).
      rewrite (map_nth (ahalf (cgrp K))). etransitivity; [|exact (ahalf_Sum (cgrp K) (P i) g)]. f_equal.
      apply (@nth_zero_cells (cmon K)). lia.
    - reflexivity.
  Qed.

  Theorem call_merge al m nm v1 v2 t1 t2 n crop d : okc m v1 v2 (Some t1) (Some t2) n -> m <> "diff" -> _default_norm (Some nm) m true = Ok nm ->
    crop <= n -> shaped (fmon K) false false nm crop d ->
    (let* o := ccorr W al (map fst v1) (map fst v2) (Some t1) (Some t2) (Some n) (Some nm) (Some m)
                 (sqarg nm m (map snd v1)) (sqarg nm m (map snd v2)) None in merge_auto (fmon K) crop d o) =
    Ok (add_pairs (V := fmon K) (rprod m) (@halfsum K) (@halfsum K) d (fun i => sel (lag_real i) (samples v1 (Some t1)) (samples v2 (Some t2)))).
  Proof.
    intros HO Hm HNm Hc HS. rewrite (@call_ccorr_fresh al m nm v1 v2 _ _ n HO HNm). cbn [bind].
    assert (Ed : String.eqb m "diff" = false) by (apply String.eqb_neq; exact Hm). unfold zeros. rewrite Ed.
    destruct d as [v c sq s1 s2|v c s1 s2|]; [|destruct HS; discriminate|contradiction].
    destruct HS as (_ & Lv & Lc & Hq & H1 & H2). rewrite andb_false_r in H2. apply opt_shaped_false in H2. subst s2.
    set (P := fun i => sel (lag_real i) (samples v1 (Some t1)) (samples v2 (Some t2))).
    cbn [add_pairs merge_auto].
    rewrite (@add_to_cells (fmon K) v _ (fun i => Sum (fmon K) (P i) (fun p => rprod m (val p))) crop Lv);
      [|rewrite plus_cells_length, repeat_length; exact Hc|intros i Hi; apply nth_zero_cells; lia].
    cbn [bind].
    rewrite (@add_to_cells natmon c _ (fun i => length (P i)) crop Lc);
      [|rewrite plus_cells_length, repeat_length; exact Hc|intros i Hi; apply nth_zero_cells; lia].
    cbn [bind].
    match goal with |- bind ?x ?f = _ => transitivity (bind (Ok (option_map (fun q => plus_cells (fmon K) q (fun i => Sum (fmon K) (P i) (fun p => sqsum K (sqv p)))) sq)) f) end.
    { f_equal. destruct (has_flag nm NORM_STRUCTURED).
      - apply opt_shaped_true in Hq. destruct Hq as (q & -> & Lq). cbn [option_map add_to_opt]. rewrite map_id.
        rewrite (@add_to_cells (fmon K) q _ (fun i => Sum (fmon K) (P i) (fun p => sqsum K (sqv p))) crop Lq);
          [reflexivity|rewrite plus_cells_length, repeat_length; exact Hc|intros i Hi; apply nth_zero_cells; lia].
      - apply opt_shaped_false in Hq. subst sq. reflexivity. }
    cbn [bind].
    destruct (has_flag nm NORM_SUBTRACTED).
    - apply opt_shaped_true in H1. destruct H1 as (q & -> & Lq). cbn [option_map].
      match goal with |- bind ?x ?f = _ => transitivity (bind (Ok (Some (plus_cells (cmon K) q (fun i => Sum (cmon K) (P i) (fun p => ahalf (cgrp K) (first (val p))))))) f) end.
      { f_equal. apply add_half; auto. }
      cbn [bind].
      match goal with |- bind ?x ?f = _ => transitivity (bind (Ok (Some (plus_cells (cmon K) (plus_cells (cmon K) q (fun i => Sum (cmon K) (P i) (fun p => ahalf (cgrp K) (first (val p)))))
        (fun i => Sum (cmon K) (P i) (fun p => ahalf (cgrp K) (second (val p))))))) f) end.
      { f_equal. apply add_half; [|exact Hc]. rewrite plus_cells_length. exact Lq. }
      cbn [bind]. do 2 f_equal. f_equal. rewrite plus_cells_twice. apply plus_cells_eq. intros i. rewrite <- Sum_madd.
      apply Sum_ext. intros p _. symmetry. apply (ahalf_add (cgrp K)).
    - apply opt_shaped_false in H1. subst s1. reflexivity.
  Qed.
End Calls.
