(** The tuples of ccorr(..., complex=True), of the difference method and of acorr. *)
From Verif Require Import Base Kernels PairSpec KernelProofs PairLemmas RegularProofs SumProofs CoreModel
  CoreProofs CoreProofs2 CoreProofs3 CoreApi CoreApi2 FftModel FftProofs FftProofs2 FftProofs3 FftApi NormModel CorrModel CorrSpec CorrProofs.
From Coq Require Import String ZifyBool ZifyNat.
Open Scope string_scope.
Open Scope nat_scope.
Local Notation length := List.length.
Set Implicit Arguments.

Section Data2.
  Variable K : Fld.
  Notation C := (Cx K).
  Variable W : nat -> Cx K.
  Notation pair := (sample C * sample C)%type.

  Theorem ccorr_complex_tuple_sq aligned (f1 f2 : list C) t1 t2 n norm nm method m f1s f2s s1 s2 aout cor count sq ds1 ds2 N :
    valid_cross f1 f2 t1 t2 ->
    _default_method method n = Ok m -> method_ok W m f1 f2 t1 t2 N -> _default_norm norm m true = Ok nm ->
    given_squares f1 f1s s1 -> given_squares f2 f2s s2 ->
    unpack_aout false aout = Ok (cor, count, sq, ds1, ds2) ->
    cells_ok true f1 f2 t1 t2 n cor N ->
    right_length count (2 * N - 1) -> right_length sq (2 * N - 1) -> right_length ds1 (2 * N - 1) -> right_length ds2 (2 * N - 1) ->
    0 < N -> (t1 = None -> N <= length f1 + 1) ->
    ccorr_complex W aligned f1 f2 t1 t2 n norm method f1s f2s aout =
    Ok (corr_tuple_sq (plus_cells (cmon K) (start (c0 K) cor (2 * N - 1))
                      (fun i => Sum (cmon K) (pairs_signed (lag_at N i) (samples f1 t1) (samples f2 t2)) (@cx_prod K)))
          count sq ds1 ds2 (2 * N - 1) nm (fun i => pairs_signed (lag_at N i) (samples f1 t1) (samples f2 t2))
          (fun i => pairs_signed (lag_at N i) (samples s1 t1) (samples s2 t2))).
  Proof.
    intros HV HD HM HNm HS1 HS2 HU HC Hcount Hsq Hd1 Hd2 H0 HN.
    unfold ccorr_complex, ccorr_gen. rewrite HD. cbn [bind]. rewrite HNm. cbn [bind].
    assert (Ed : String.eqb m "diff" = false) by (destruct HM as [->|[-> _]]; reflexivity). rewrite Ed.
    cbn [andb]. rewrite HU. cbn [bind].
    destruct (@inspect_cross_ok C C f1 f2 t1 t2 n (option_map (@length (Cx K)) cor) true HV)
      as (c & ts & N' & EI & E1 & E2 & EG & P1 & P2 & P3).
    cbn [mcar cmon] in *. rewrite EI. cbn [bind].
    assert (EN : N' = N) by (eapply (@resolve_N K W C); eauto). subst N'.
    rewrite E1, E2.
    assert (HV' := sh_valid c HV).
    assert (HM' : method_ok W m f1 f2 (sh c t1) (sh c t2) N).
    { destruct HM as [->|[-> HF]]; [left; reflexivity|right; split; [reflexivity|apply fft_ok_shift; auto]]. }
    assert (HN' : sh c t1 = None -> N <= length f1 + 1) by (destruct t1; [discriminate|auto]).
    etransitivity; [apply f_equal2; [|reflexivity]; exact (@any_corr_complex K W f1 f2 (sh c t1) (sh c t2) m N HV' HM' HN' aligned cor H0 (proj2 HC))|].
    cbn [bind].
    match goal with |- bind ?x ?f = _ => transitivity (bind (Ok (plus_cells natmon (start 0 count (2 * N - 1))
       (fun i => length (pairs_signed (lag_at N i) (samples f1 (sh c t1)) (samples f2 (sh c t2)))))) f) end.
    { f_equal. rewrite <- (@count_complex K f1 f2 (sh c t1) (sh c t2) N HV' count H0 Hcount).
      destruct ts as [[u v]|]; cbn [option_map fst snd] in E1, E2; rewrite <- E1, <- E2; reflexivity. }
    cbn [bind].
    assert (EU : given ts = given (sh c t1)) by (rewrite EG; destruct t1; reflexivity). rewrite EU.
    rewrite (squares_given_sq HS1), (squares_given_sq HS2).
    destruct HV as [HLen HT].
    pose proof (given_length HS1) as L1.
    assert (HVs : valid_cross s1 s2 (sh c t1) (sh c t2)) by (apply (@same_length_valid C K f1 f2); [exact L1|exact (given_length HS2)|exact HV']).
    assert (HNs : sh c t1 = None -> N <= length s1 + 1) by (rewrite L1; exact HN').
    assert (L2 : length s2 = length f1) by (rewrite (given_length HS2); auto).
    destruct (sh_samples2 f1 f2 c t1 t2 (valid_given (Logic.conj HLen HT))) as (c' & S1 & S2).
    destruct (sh_samples2 s1 s2 c t1 t2 (valid_given (Logic.conj HLen HT))) as (c'' & S1' & S2').
    match goal with |- bind ?x ?f = _ => transitivity (bind (Ok
      (if has_flag nm NORM_STRUCTURED
       then Some (plus_cells (fmon K) (start (f0 K) sq (2 * N - 1)) (fun i => Sum (fmon K) (pairs_signed (lag_at N i) (samples s1 t1) (samples s2 t2)) (@sqsum K))) else sq)) f) end.
    { f_equal. rewrite andb_true_r. destruct (has_flag nm NORM_STRUCTURED); [|reflexivity].
      rewrite (proj1 (@any_sum_sq K W f1 f2 (sh c t1) (sh c t2) m N HV' HM' s1 true false sq L1 Hsq)).
      rewrite (@start_fresh_sum (fgrp K) s1 _ _ N true false sq (2 * N - 1)) by auto.
      rewrite <- (map_id s1) at 1.
      erewrite (@sum_first_signed (fgrp K) K (fun z => z) s1 s2 (sh c t1) (sh c t2) HVs) by (first [apply start_length; eassumption|eauto]).
      cbn [bind].
      match goal with |- context [Some (plus_cells ?M ?o ?g)] =>
        rewrite (proj2 (@any_sum_sq K W f1 f2 (sh c t1) (sh c t2) m N HV' HM' s2 true true (Some (plus_cells M o g)) L2
         (eq_trans (plus_cells_length M o g) (@start_length _ (f0 K) sq (2 * N - 1) Hsq)))) end.
      rewrite <- (map_id s2) at 1.
      erewrite (@sum_second_signed (fgrp K) K (fun z => z) s1 s2 (sh c t1) (sh c t2) HVs) by (first [rewrite ?plus_cells_length; apply start_length; eassumption|eauto]).
      cbn [bind]. do 2 f_equal. rewrite plus_cells_twice. apply plus_cells_eq. intros i.
      rewrite <- Sum_madd. rewrite S1', S2'. apply shift_signed_sum. reflexivity. }
    cbn [bind].
    match goal with |- bind ?x ?f = _ => transitivity (bind (Ok
      ((if has_flag nm NORM_SUBTRACTED
       then Some (plus_cells (cmon K) (start (c0 K) ds1 (2 * N - 1)) (fun i => Sum (cmon K) (pairs_signed (lag_at N i) (samples f1 t1) (samples f2 t2)) (@first K))) else ds1),
       (if has_flag nm NORM_SUBTRACTED
       then Some (plus_cells (cmon K) (start (c0 K) ds2 (2 * N - 1)) (fun i => Sum (cmon K) (pairs_signed (lag_at N i) (samples f1 t1) (samples f2 t2)) (@second K))) else ds2))) f) end.
    { f_equal. destruct (has_flag nm NORM_SUBTRACTED); [|reflexivity].
      rewrite (proj1 (@any_sum_f K W f1 f2 (sh c t1) (sh c t2) m N HV' HM' f1 true false ds1 eq_refl Hd1)).
      rewrite (@start_fresh_sum (cgrp K) f1 _ _ N true false ds1 (2 * N - 1)) by auto.
      rewrite <- (map_id f1) at 1.
      erewrite (@sum_first_signed (cgrp K) C (fun z => z) f1 f2 (sh c t1) (sh c t2) HV') by (first [apply start_length; eassumption|eauto]).
      cbn [bind].
      rewrite (proj2 (@any_sum_f K W f1 f2 (sh c t1) (sh c t2) m N HV' HM' f2 true true ds2 (eq_sym HLen) Hd2)).
      rewrite (@start_fresh_sum (cgrp K) f2 _ _ N true true ds2 (2 * N - 1)) by auto.
      rewrite <- (map_id f2) at 1.
      erewrite (@sum_second_signed (cgrp K) C (fun z => z) f1 f2 (sh c t1) (sh c t2) HV') by (first [rewrite ?plus_cells_length; apply start_length; eassumption|eauto]).
      cbn [bind]. apply (f_equal (@Ok _)), f_equal2; apply (f_equal (@Some _)); apply plus_cells_eq; intros i; rewrite S1, S2; apply shift_signed_sum; reflexivity. }
    cbn [bind]. unfold corr_tuple_sq. f_equal. f_equal.
    - apply plus_cells_eq. intros i. rewrite S1, S2. apply shift_signed_sum. reflexivity.
    - apply plus_cells_eq. intros i. rewrite S1, S2. rewrite pairs_signed_map by (intros; apply delay_shift). apply map_length.
  Qed.


  Theorem ccorr_complex_tuple aligned (f1 f2 : list C) t1 t2 n norm nm method m f1s f2s aout cor count sq ds1 ds2 N :
    valid_cross f1 f2 t1 t2 ->
    _default_method method n = Ok m -> method_ok W m f1 f2 t1 t2 N -> _default_norm norm m true = Ok nm ->
    squares_ok f1 f1s -> squares_ok f2 f2s ->
    unpack_aout false aout = Ok (cor, count, sq, ds1, ds2) ->
    cells_ok true f1 f2 t1 t2 n cor N ->
    right_length count (2 * N - 1) -> right_length sq (2 * N - 1) -> right_length ds1 (2 * N - 1) -> right_length ds2 (2 * N - 1) ->
    0 < N -> (t1 = None -> N <= length f1 + 1) ->
    ccorr_complex W aligned f1 f2 t1 t2 n norm method f1s f2s aout =
    Ok (corr_tuple (plus_cells (cmon K) (start (c0 K) cor (2 * N - 1))
                      (fun i => Sum (cmon K) (pairs_signed (lag_at N i) (samples f1 t1) (samples f2 t2)) (@cx_prod K)))
          count sq ds1 ds2 (2 * N - 1) nm (fun i => pairs_signed (lag_at N i) (samples f1 t1) (samples f2 t2))).
  Proof.
    intros HV HD HM HNm HS1 HS2 HU HC Hcount Hsq Hd1 Hd2 H0 HN.
    rewrite (@ccorr_complex_tuple_sq aligned f1 f2 t1 t2 n norm nm method m f1s f2s (abs2 f1) (abs2 f2) aout cor count sq ds1 ds2 N)
      by (auto using squares_ok_given).
    unfold corr_tuple_sq, corr_tuple. do 2 f_equal. destruct (has_flag nm NORM_STRUCTURED); [|reflexivity].
    f_equal. apply plus_cells_eq. intros i. unfold abs2. rewrite !samples_map. rewrite pairs_signed_map by reflexivity. apply Sum_map.
  Qed.

  Lemma any_diff (f1 f2 : list C) t1 t2 N : valid_cross f1 f2 t1 t2 -> (t1 = None -> N <= length f1 + 1) ->
    forall aligned aout, right_length aout N ->
    cross_difference f1 f2 t1 t2 (Some N) aligned aout =
    Ok (plus_cells (fmon K) (start (f0 K) aout N)
          (fun i => Sum (fmon K) (pairs_at i (samples f1 t1) (samples f2 t2)) (@sq_diff K))).
  Proof.
    intros HV HN aligned aout Ho. destruct aout as [o|].
    - apply cross_difference_aout; [exact HV|]. cbn in Ho. intros E _. exact (eq_ind_r (fun x => x <= length f1 + 1) (HN E) Ho).
    - rewrite cross_difference_fresh by auto. f_equal. symmetry. exact (plus_cells_zero (fmon K) N _).
  Qed.

  (** ** ccorr with the difference method *)
  Theorem ccorr_diff_tuple aligned (f1 f2 : list C) t1 t2 n norm nm f1s f2s aout cor count sq ds1 ds2 N :
    valid_cross f1 f2 t1 t2 ->
    _default_norm norm "diff" true = Ok nm ->
    unpack_aout true aout = Ok (cor, count, sq, ds1, ds2) ->
    cells_ok false f1 f2 t1 t2 n cor N ->
    right_length count N -> right_length ds1 N -> right_length ds2 N ->
    (t1 = None -> N <= length f1 + 1) ->
    ccorr W aligned f1 f2 t1 t2 n norm (Some "diff") f1s f2s aout =
    Ok (DDiff (plus_cells (fmon K) (start (f0 K) cor N)
                 (fun i => Sum (fmon K) (pairs_at i (samples f1 t1) (samples f2 t2)) (@sq_diff K)))
          (plus_cells natmon (start 0 count N) (fun i => length (pairs_at i (samples f1 t1) (samples f2 t2))))
          (if has_flag nm NORM_SUBTRACTED
           then Some (plus_cells (cmon K) (start (c0 K) ds1 N) (fun i => Sum (cmon K) (pairs_at i (samples f1 t1) (samples f2 t2)) (@first K))) else ds1)
          (if has_flag nm NORM_SUBTRACTED
           then Some (plus_cells (cmon K) (start (c0 K) ds2 N) (fun i => Sum (cmon K) (pairs_at i (samples f1 t1) (samples f2 t2)) (@second K))) else ds2)).
  Proof.
    intros HV HNm HU HC Hcount Hd1 Hd2 HN.
    unfold ccorr, ccorr_gen. cbn [_default_method String.eqb Ascii.eqb Bool.eqb orb bind]. rewrite HNm. cbn [bind].
    cbn [andb]. rewrite HU. cbn [bind].
    destruct (@inspect_cross_ok C C f1 f2 t1 t2 n (option_map (@length K) cor) false HV)
      as (c & ts & N' & EI & E1 & E2 & EG & P1 & P2 & P3).
    cbn [mcar fmon] in *. rewrite EI. cbn [bind].
    assert (EN : N' = N) by (eapply (@resolve_N K W K); eauto; discriminate). subst N'.
    rewrite E1, E2.
    assert (HV' := sh_valid c HV).
    assert (HN' : sh c t1 = None -> N <= length f1 + 1) by (destruct t1; [discriminate|auto]).
    etransitivity; [apply f_equal2; [|reflexivity]; exact (@any_diff f1 f2 (sh c t1) (sh c t2) N HV' HN' aligned cor (proj2 HC))|].
    cbn [bind].
    match goal with |- bind ?x ?f = _ => transitivity (bind (Ok (plus_cells natmon (start 0 count N)
       (fun i => length (pairs_at i (samples f1 (sh c t1)) (samples f2 (sh c t2)))))) f) end.
    { f_equal. rewrite <- (@count_real K f1 f2 (sh c t1) (sh c t2) N HV' count Hcount).
      destruct ts as [[u v]|]; cbn [option_map fst snd] in E1, E2; rewrite <- E1, <- E2; reflexivity. }
    cbn [bind].
    destruct HV as [HLen HT].
    destruct (sh_samples2 f1 f2 c t1 t2 (valid_given (Logic.conj HLen HT))) as (c' & S1 & S2).
    rewrite andb_false_r. cbn [bind].
    match goal with |- bind ?x ?f = _ => transitivity (bind (Ok
      ((if has_flag nm NORM_SUBTRACTED
       then Some (plus_cells (cmon K) (start (c0 K) ds1 N) (fun i => Sum (cmon K) (pairs_at i (samples f1 t1) (samples f2 t2)) (@first K))) else ds1),
       (if has_flag nm NORM_SUBTRACTED
       then Some (plus_cells (cmon K) (start (c0 K) ds2 N) (fun i => Sum (cmon K) (pairs_at i (samples f1 t1) (samples f2 t2)) (@second K))) else ds2))) f) end.
    { f_equal. destruct (has_flag nm NORM_SUBTRACTED); [|reflexivity].
      rewrite (@start_fresh_sum (cgrp K) f1 _ _ N false false ds1 N) by (auto; discriminate).
      rewrite <- (map_id f1) at 1.
      rewrite (@sum_first (cgrp K) C (fun z => z) f1 f2 (sh c t1) (sh c t2) HV') by (intros E; rewrite start_length by assumption; auto).
      cbn [bind].
      rewrite (@start_fresh_sum (cgrp K) f2 _ _ N false true ds2 N) by (auto; discriminate).
      rewrite <- (map_id f2) at 1.
      rewrite (@sum_second (cgrp K) C (fun z => z) f1 f2 (sh c t1) (sh c t2) HV') by (intros E; rewrite start_length by assumption; auto).
      cbn [bind]. apply (f_equal (@Ok _)), f_equal2; apply (f_equal (@Some _)); apply plus_cells_eq; intros i; rewrite S1, S2; apply shift_pairs_sum; reflexivity. }
    cbn [bind]. f_equal. f_equal.
    - apply plus_cells_eq. intros i. rewrite S1, S2. apply shift_pairs_sum. reflexivity.
    - apply plus_cells_eq. intros i. rewrite S1, S2. rewrite pairs_at_map by (intros; apply delay_shift). apply map_length.
  Qed.

  (** ** acorr *)
  Notation fft_ok_auto := (fft_ok_auto W).
  Definition method_ok_auto (method : string) (f : list C) (t : option (list Z)) (N : nat) : Prop :=
    method = "corr" \/ (method = "fft" /\ fft_ok_auto f t N).
  Definition halfsum (p : pair) : C := ahalf (cgrp K) (cadd (first p) (second p)).

  Lemma fft_ok_auto_shift f c t N : fft_ok_auto f t N -> fft_ok_auto f (sh c t) N.
  Proof.
    intros (Hne & L & HC & Hw & HN). destruct (sh_samples f c t) as (c' & E & _). unfold CorrSpec.fft_ok_auto. rewrite E.
    split; [exact Hne|]. exists L. split; [|auto].
    apply (@covers_snd _ _ _ _ (samples f t) (samples f t) _ _ c'); [apply snd_shift|apply snd_shift|exact HC].
  Qed.

  Lemma shift_upairs_sum (M : CMon) A c (h : sample A * sample A -> M) d k :
    (forall p, h (map_pair (shift_time c) (shift_time c) p) = h p) ->
    Sum M (upairs_at k (map (shift_time c) d)) h = Sum M (upairs_at k d) h.
  Proof.
    intros H. rewrite upairs_at_map by (intros; apply delay_shift). rewrite Sum_map. apply Sum_ext. intros p _. apply H.
  Qed.

  Lemma snd_samples_same A B (f : list A) (g : list B) t :
    valid_auto f t -> length g = length f -> map snd (samples g t) = map snd (samples f t).
  Proof.
    intros HV E. destruct t as [u|]; cbn [samples].
    - destruct HV as [H1 _]. rewrite !snd_combine by lia. reflexivity.
    - rewrite !snd_regular, E. reflexivity.
  Qed.

  Section AutoChain.
    Variable f : list C.
    Variable t : option (list Z).
    Variable N : nat.
    Hypothesis HV : valid_auto f t.
    Hypothesis HN : t = None -> N <= length f + 1.
    Hypothesis HD : distinct (samples f t).
    Let d := samples f t.

    Lemma auto_sum_any (G : QGrp) A (g : list A) (h : A -> G) aout : length g = length f -> right_length aout N ->
      auto_sum G (map h g) t (Some N) aout =
      Ok (plus_cells G (start (m0 G) aout N)
            (fun i => Sum G (upairs_at i (samples g t)) (fun p => ahalf G (madd G (h (fst (fst p))) (h (fst (snd p))))))).
    Proof.
      intros Hg Ho.
      assert (VG : valid_auto (map h g) t).
      { destruct t; cbn [valid_auto] in *; [|exact I]. rewrite map_length, Hg. destruct HV. split; [auto|]. apply nonnil_map. intros ->. destruct f; cbn in *; congruence. }
      assert (E : forall i, auto_sum_value G (samples (map h g) t) i =
                   Sum G (upairs_at i (samples g t)) (fun p => ahalf G (madd G (h (fst (fst p))) (h (fst (snd p)))))).
      { intros i. rewrite samples_map. rewrite auto_sum_value_distinct.
        - unfold asum_spec. rewrite upairs_at_map by reflexivity. apply Sum_map.
        - unfold distinct in *. rewrite map_map. replace (map (fun x => snd (map_val h x)) (samples g t)) with (map snd (samples f t)); [exact HD|].
          rewrite (map_ext (fun x => snd (map_val h x)) snd) by reflexivity. symmetry. apply snd_samples_same, Hg. exact HV. }
      destruct aout as [o|].
      - rewrite auto_sum_aout; [|exact VG|].
        + f_equal. apply plus_cells_eq. exact E.
        + intros Et. rewrite map_length, Hg. cbn [right_length] in Ho. exact (eq_ind_r (fun x => x <= length f + 1) (HN Et) Ho).
      - rewrite auto_sum_fresh; [|exact VG|rewrite map_length, Hg; exact HN].
        f_equal. etransitivity; [|symmetry; exact (plus_cells_zero G N _)]. apply map_ext. exact E.
    Qed.

    Variable method : string.
    Hypothesis HM : method_ok_auto method f t N.
    Let use := (String.eqb method "fft" && given t)%bool.

    Lemma use_cases_auto : use = false \/ (exists u, t = Some u /\ fft_ok_auto f t N).
    Proof.
      unfold use. destruct HM as [->|[-> HF]]; [left; reflexivity|].
      destruct t as [u|]; cbn [given]; [|left; reflexivity]. right. exists u. auto.
    Qed.
    Lemma auto_covers A (g : list A) u L : t = Some u -> length g = length f ->
      covers d d L -> covers (combine g u) (combine g u) L.
    Proof.
      intros E Hg HC. subst t. destruct HV as [H1 _]. unfold d in HC. cbn [samples] in HC.
      assert (E : forall t : list Z, t = map (fun t => t - 0)%Z t)
        by (intros t; rewrite <- map_id at 1; apply map_ext; intros; lia).
      apply (@covers_snd _ _ _ _ (combine f u) (combine f u) _ _ 0%Z); rewrite ?snd_combine by lia; auto.
    Qed.
    Lemma auto_nodup u : t = Some u -> NoDup u.
    Proof.
      intros E. subst t. destruct HV as [H1 _]. unfold distinct in HD. cbn [samples] in HD.
      rewrite snd_combine in HD by lia. exact HD.
    Qed.

    Lemma any_auto_sq (g : list K) aout : length g = length f -> right_length aout N ->
      (if use then auto_sum_fft_real W else auto_sum (fgrp K)) g t (Some N) aout = auto_sum (fgrp K) g t (Some N) aout.
    Proof.
      intros Hg Ho. destruct use_cases_auto as [->|(u & E & HF)]; [reflexivity|]. destruct use; [|reflexivity].
      destruct HF as (Hne & L & HC & Hw & HL). pose proof (@auto_covers _ g u L E Hg HC) as HC'. pose proof (auto_nodup E) as ND.
      rewrite E in *. destruct HV as [H1 _].
      assert (VG : valid_auto g (Some u)) by (split; [lia|destruct g, f; cbn in *; congruence]).
      apply (@auto_sum_fft_direct K W (fgrp K) (@cofre K) (@cre K) eq_refl (fun _ _ => eq_refl) (fun _ => eq_refl) g u L VG ND HC' Hw).
      destruct aout as [o|]; cbn [output_length]; [|exact HL]. cbn [right_length] in Ho. exact (eq_ind_r (fun x => 0 < x <= L + 1) HL Ho).
    Qed.
    Lemma any_auto_f aout : right_length aout N ->
      (if use then auto_sum_fft_complex W else auto_sum (cgrp K)) f t (Some N) aout = auto_sum (cgrp K) f t (Some N) aout.
    Proof.
      intros Ho. destruct use_cases_auto as [->|(u & E & HF)]; [reflexivity|]. destruct use; [|reflexivity].
      destruct HF as (Hne & L & HC & Hw & HL). pose proof (@auto_covers _ f u L E eq_refl HC) as HC'. pose proof (auto_nodup E) as ND.
      rewrite E in *.
      apply (@auto_sum_fft_direct K W (cgrp K) (fun z => z) (@conj K) (@conj_0 K) (@conj_add K) (@conj_conj K) f u L HV ND HC' Hw).
      destruct aout as [o|]; cbn [output_length]; [|exact HL]. cbn [right_length] in Ho. exact (eq_ind_r (fun x => 0 < x <= L + 1) HL Ho).
    Qed.
    Variable aligned : bool.
    Lemma any_auto_corr aout : right_length aout N ->
      (if String.eqb method "fft" then auto_correlate_fft W
       else if String.eqb method "corr" then (fun f t n aout => auto_correlate f t n aligned aout)
       else (fun f t n aout => auto_difference f t n aligned aout)) f t (Some N) aout =
      Ok (plus_cells (fmon K) (start (f0 K) aout N) (fun i => Sum (fmon K) (upairs_at i d) (@re_prod K))).
    Proof.
      intros Ho.
      assert (E : auto_correlate f t (Some N) aligned aout =
        Ok (plus_cells (fmon K) (start (f0 K) aout N) (fun i => Sum (fmon K) (upairs_at i d) (@re_prod K)))).
      { destruct aout as [o|].
        - apply auto_correlate_aout; [exact HV|]. cbn in Ho. intros E _. exact (eq_ind_r (fun x => x <= length f + 1) (HN E) Ho).
        - rewrite auto_correlate_fresh by auto. f_equal. symmetry. exact (plus_cells_zero (fmon K) N _). }
      destruct HM as [->|[-> (Hne & L & HC & Hw & HL)]]; [exact E|]. cbn [String.eqb Ascii.eqb Bool.eqb].
      etransitivity; [|exact E]. apply (@auto_correlate_fft_direct K W f t L); auto.
      destruct aout as [o|]; cbn [output_length]; [|apply HL]. cbn [right_length] in Ho. exact (eq_ind_r (fun x => x <= L + 1) (proj2 HL) Ho).
    Qed.
    Lemma any_auto_corr_complex aout : right_length aout N ->
      (if String.eqb method "fft" then auto_correlate_fft_complex W
       else if String.eqb method "corr" then (fun f t n aout => auto_correlate_complex f t n aligned aout)
       else (fun f t n _ => let* r := auto_difference f t n aligned None in Ok (map (@cofre K) r))) f t (Some N) aout =
      Ok (plus_cells (cmon K) (start (c0 K) aout N) (fun i => Sum (cmon K) (upairs_at i d) (@cx_prod_ordered K))).
    Proof.
      intros Ho.
      assert (E : auto_correlate_complex f t (Some N) aligned aout =
        Ok (plus_cells (cmon K) (start (c0 K) aout N) (fun i => Sum (cmon K) (upairs_at i d) (@cx_prod_ordered K)))).
      { destruct aout as [o|].
        - apply auto_correlate_complex_aout; [exact HV|]. cbn in Ho. intros E _. exact (eq_ind_r (fun x => x <= length f + 1) (HN E) Ho).
        - rewrite auto_correlate_complex_fresh by auto. f_equal. symmetry. exact (plus_cells_zero (cmon K) N _). }
      destruct HM as [->|[-> (Hne & L & HC & Hw & HL)]]; [exact E|]. cbn [String.eqb Ascii.eqb Bool.eqb].
      etransitivity; [|exact E]. apply (@auto_correlate_fft_complex_direct K W f t L); auto.
      destruct aout as [o|]; cbn [output_length]; [|apply HL]. cbn [right_length] in Ho. exact (eq_ind_r (fun x => x <= L + 1) (proj2 HL) Ho).
    Qed.
    Lemma any_auto_diff aout : right_length aout N ->
      auto_difference f t (Some N) aligned aout =
      Ok (plus_cells (fmon K) (start (f0 K) aout N) (fun i => Sum (fmon K) (upairs_at i d) (@sq_diff K))).
    Proof.
      intros Ho. destruct aout as [o|].
        - apply auto_difference_aout; [exact HV|]. cbn in Ho. intros E _. exact (eq_ind_r (fun x => x <= length f + 1) (HN E) Ho).
        - rewrite auto_difference_fresh by auto. f_equal. symmetry. exact (plus_cells_zero (fmon K) N _).
    Qed.
    Lemma any_auto_count aout : right_length aout N ->
      auto_count (TArray match t with None => arange (length f) | Some t => t end) (Some N) aout =
      Ok (plus_cells natmon (start 0 aout N) (fun i => length (upairs_at i d))).
    Proof.
      clear HN HD HM use. intros Ho.
      assert (Et : times match t with None => arange (length f) | Some t => t end = map (map_val (fun _ => tt)) d).
      { unfold d. destruct t as [u|]; [exact (@times_of_samples _ f (Some u) (proj1 HV))|exact (@times_of_samples _ f None I)]. }
      assert (X : forall i, length (upairs_at i (times match t with None => arange (length f) | Some t => t end)) = length (upairs_at i d)).
      { intros i. rewrite Et. rewrite upairs_at_map by reflexivity. apply map_length. }
      destruct aout as [o|].
      - rewrite auto_count_aout. f_equal. apply plus_cells_eq. exact X.
      - rewrite auto_count_fresh. apply (f_equal (@Ok (list nat))). etransitivity; [|symmetry; exact (plus_cells_zero natmon N _)].
        apply map_ext. exact X.
    Qed.
  End AutoChain.

  Definition acorr_tuple {V} (cor : list V) (count : option (list nat)) (sq : option (list K)) (ds : option (list C))
      (len : nat) (norm : Z) (P : nat -> list pair) : cdata K V :=
    DCorr cor
      (plus_cells natmon (start 0 count len) (fun i => length (P i)))
      (if has_flag norm NORM_STRUCTURED
       then Some (plus_cells (fmon K) (start (f0 K) sq len) (fun i => Sum (fmon K) (P i) (@squares K))) else sq)
      (if has_flag norm NORM_SUBTRACTED
       then Some (plus_cells (cmon K) (start (c0 K) ds len) (fun i => Sum (cmon K) (P i) halfsum)) else ds)
      None.

  (** The same with squares passed as fs, of which [Q i] are the pairs. *)
  Definition acorr_tuple_sq {V} (cor : list V) (count : option (list nat)) (sq : option (list K)) (ds : option (list C))
      (len : nat) (norm : Z) (P : nat -> list pair) (Q : nat -> list (sample K * sample K)) : cdata K V :=
    DCorr cor
      (plus_cells natmon (start 0 count len) (fun i => length (P i)))
      (if has_flag norm NORM_STRUCTURED
       then Some (plus_cells (fmon K) (start (f0 K) sq len) (fun i => Sum (fmon K) (Q i) (@sqsum K))) else sq)
      (if has_flag norm NORM_SUBTRACTED
       then Some (plus_cells (cmon K) (start (c0 K) ds len) (fun i => Sum (cmon K) (P i) halfsum)) else ds)
      None.

  Definition cells_ok_auto {A} (f : list C) (t : option (list Z)) (n : option nat) (cor : option (list A)) (N : nat) : Prop :=
    match n, cor with
    | Some n, _ => N = n
    | None, Some o => True
    | None, None => f <> [] /\ covers (samples f t) (samples f t) N
    end /\ right_length cor N.

  Lemma resolve_N_auto A (f : list C) t n (cor : option (list A)) N (N' : nat) :
    cells_ok_auto f t n cor N ->
    (forall m, n = Some m -> N' = m) ->
    (n = None -> forall l, option_map (@length A) cor = Some l -> N' = l) ->
    (n = None -> option_map (@length A) cor = None -> f <> [] -> covers (samples f t) (samples f t) N') ->
    valid_auto f t -> N' = N.
  Proof.
    intros [H HL] P1 P2 P3 HV. destruct n as [n|]; [rewrite (P1 n eq_refl); auto|].
    destruct cor as [o|]; cbn [option_map right_length] in *.
    - rewrite (P2 eq_refl _ eq_refl), HL. reflexivity.
    - destruct H as [Hne HC]. specialize (P3 eq_refl eq_refl Hne).
      destruct (@covers_samples_auto _ f t HV Hne) as (L & _ & HC' & HL' & _).
      rewrite (covers_unique HC HC' HL'). exact (covers_unique P3 HC' HL').
  Qed.

  Lemma double_half (x y : K) :
    ahalf (fgrp K) (fadd K (fmul K (fadd K (f1 K) (f1 K)) x) (fmul K (fadd K (f1 K) (f1 K)) y)) = fadd K x y.
  Proof.
    transitivity (ahalf (fgrp K) (madd (fgrp K) (fadd K x y) (fadd K x y))); [|apply ahalf_double].
    f_equal. pose proof (F_R (flaw K)) as R. change (madd (fgrp K)) with (fadd K).
    rewrite !(Rdistr_l R), !(Rmul_1_l R).
    rewrite <- !(Radd_assoc R). f_equal. rewrite !(Radd_assoc R). f_equal. apply (Radd_comm R).
  Qed.

  Section AcorrTuples.
    Variables (V : CMon) (fft corr diff : list C -> option (list Z) -> option nat -> option (list V) -> res (list V)).
    Variable prod : pair -> V.
    Variables (f : list C) (t : option (list Z)) (n : option nat) (norm : option Z) (nm : Z) (method : option string) (m : string).
    Variables (fs : option (list K)) (s : list K) (aout : option (cdata K V)) (cor : option (list V)) (count : option (list nat))
      (sq : option (list K)) (ds ds2 : option (list C)) (N : nat).
    Hypothesis HV : valid_auto f t.
    Hypothesis HD : distinct (samples f t).
    Hypothesis Hmeth : _default_method method n = Ok m.
    Hypothesis HM : method_ok_auto m f t N.
    Hypothesis HNm : _default_norm norm m false = Ok nm.
    Hypothesis HS : given_squares f fs s.
    Hypothesis HU : unpack_aout false aout = Ok (cor, count, sq, ds, ds2).
    Hypothesis HC : cells_ok_auto f t n cor N.
    Hypothesis Hcount : right_length count N.
    Hypothesis Hsq : right_length sq N.
    Hypothesis Hds : right_length ds N.
    Hypothesis HN : t = None -> N <= length f + 1.
    Hypothesis Hprod : forall c p, prod (map_pair (shift_time c) (shift_time c) p) = prod p.
    Hypothesis Hrun : forall c, valid_auto f (sh c t) -> (sh c t = None -> N <= length f + 1) ->
      distinct (samples f (sh c t)) -> method_ok_auto m f (sh c t) N -> right_length cor N ->
      (if String.eqb m "fft" then fft else if String.eqb m "corr" then corr else diff) f (sh c t) (Some N) cor =
      Ok (plus_cells V (start (m0 V) cor N) (fun i => Sum V (upairs_at i (samples f (sh c t))) prod)).

    Lemma acorr_gen_tuple_sq : acorr_gen W fft corr diff f t fs n norm method aout =
      Ok (acorr_tuple_sq (plus_cells V (start (m0 V) cor N) (fun i => Sum V (upairs_at i (samples f t)) prod))
            count sq ds N nm (fun i => upairs_at i (samples f t)) (fun i => upairs_at i (samples s t))).
    Proof.
      unfold acorr_gen. rewrite Hmeth. cbn [bind]. rewrite HNm. cbn [bind].
      assert (Ed : String.eqb m "diff" = false) by (destruct HM as [->|[-> _]]; reflexivity). rewrite Ed.
      rewrite HU. cbn [bind].
      destruct (@inspect_auto_ok C f t n (option_map (@length V) cor) HV) as (c & t' & N' & EI & Et & P1 & P2 & P3).
      rewrite EI. cbn [bind]. subst t'.
      assert (EN : N' = N) by (eapply (@resolve_N_auto V); eauto). subst N'.
      assert (HV' := @sh_valid_auto _ f c t HV).
      assert (HM' : method_ok_auto m f (sh c t) N).
      { destruct HM as [->|[-> HF]]; [left; reflexivity|right; split; [reflexivity|apply fft_ok_auto_shift; auto]]. }
      assert (HN' : sh c t = None -> N <= length f + 1) by (destruct t; [discriminate|auto]).
      destruct (sh_samples f c t) as (c' & ES & _).
      assert (HD' : distinct (samples f (sh c t))) by (rewrite ES; apply distinct_shift, HD).
      rewrite (Hrun c HV' HN' HD' HM' (proj2 HC)). cbn [bind].
      rewrite (@any_auto_count f (sh c t) N HV' count Hcount). cbn [bind].
      rewrite (squares_given_sq HS). pose proof (given_length HS) as Ls.
      destruct (sh_samples s c t) as (c'' & ESs & _).
      match goal with |- bind ?x ?g = _ => transitivity (bind (Ok
        (if has_flag nm NORM_STRUCTURED
         then Some (plus_cells (fmon K) (start (f0 K) sq N) (fun i => Sum (fmon K) (upairs_at i (samples s t)) (@sqsum K))) else sq)) g) end.
      { f_equal. rewrite andb_true_r. destruct (has_flag nm NORM_STRUCTURED); [|reflexivity].
        assert (L1 : length (map (fmul K (fadd K (f1 K) (f1 K))) s) = length f) by (rewrite map_length; exact Ls).
        rewrite (@any_auto_sq f (sh c t) N HV' HN' HD' m HM' _ sq L1 Hsq).
        etransitivity; [apply f_equal2; [exact (@auto_sum_any f (sh c t) N HV' HN' HD' (fgrp K) K s (fmul K (fadd K (f1 K) (f1 K))) sq Ls Hsq)|reflexivity]|].
        cbn [bind]. apply (f_equal (@Ok _)), (f_equal (@Some _)). apply plus_cells_eq. intros i.
        rewrite ESs. etransitivity; [apply (@shift_upairs_sum (fmon K)); reflexivity|].
        apply (@Sum_ext (fmon K)). intros p _. apply double_half. }
      cbn [bind].
      match goal with |- bind ?x ?g = _ => transitivity (bind (Ok
        (if has_flag nm NORM_SUBTRACTED
         then Some (plus_cells (cmon K) (start (c0 K) ds N) (fun i => Sum (cmon K) (upairs_at i (samples f t)) halfsum)) else ds)) g) end.
      { f_equal. rewrite andb_true_r. destruct (has_flag nm NORM_SUBTRACTED); [|reflexivity].
        rewrite (@any_auto_f f (sh c t) N HV' HN' HD' m HM' ds Hds).
        pose proof (@auto_sum_any f (sh c t) N HV' HN' HD' (cgrp K) C f (fun z => z) ds eq_refl Hds) as EA. rewrite map_id in EA.
        etransitivity; [apply f_equal2; [exact EA|reflexivity]|].
        cbn [bind]. apply (f_equal (@Ok _)), (f_equal (@Some _)). apply plus_cells_eq. intros i.
        rewrite ES. apply (@shift_upairs_sum (cmon K)); reflexivity. }
      cbn [bind]. unfold acorr_tuple_sq. f_equal. f_equal.
      - apply plus_cells_eq. intros i. rewrite ES. apply shift_upairs_sum. apply Hprod.
      - apply plus_cells_eq. intros i. rewrite ES. rewrite upairs_at_map by (intros; apply delay_shift). apply map_length.
    Qed.
  End AcorrTuples.

  Theorem acorr_tuple_real_sq aligned (f : list C) t fs s n norm nm method m aout cor count sq ds ds2 N :
    valid_auto f t -> distinct (samples f t) ->
    _default_method method n = Ok m -> method_ok_auto m f t N -> _default_norm norm m false = Ok nm ->
    given_squares f fs s -> unpack_aout false aout = Ok (cor, count, sq, ds, ds2) ->
    cells_ok_auto f t n cor N -> right_length count N -> right_length sq N -> right_length ds N ->
    (t = None -> N <= length f + 1) ->
    acorr W aligned f t fs n norm method aout =
    Ok (acorr_tuple_sq (plus_cells (fmon K) (start (f0 K) cor N) (fun i => Sum (fmon K) (upairs_at i (samples f t)) (@re_prod K)))
          count sq ds N nm (fun i => upairs_at i (samples f t)) (fun i => upairs_at i (samples s t))).
  Proof.
    intros HV HD Hm HM HNm HS HU HC Hc Hs Hd HN. unfold acorr.
    apply (@acorr_gen_tuple_sq (fmon K)) with (m := m) (ds2 := ds2); auto.
    intros c V1 N1 D1 M1 R1. exact (@any_auto_corr f (sh c t) N V1 N1 D1 m M1 aligned cor R1).
  Qed.
  Theorem acorr_tuple_complex_sq aligned (f : list C) t fs s n norm nm method m aout cor count sq ds ds2 N :
    valid_auto f t -> distinct (samples f t) ->
    _default_method method n = Ok m -> method_ok_auto m f t N -> _default_norm norm m false = Ok nm ->
    given_squares f fs s -> unpack_aout false aout = Ok (cor, count, sq, ds, ds2) ->
    cells_ok_auto f t n cor N -> right_length count N -> right_length sq N -> right_length ds N ->
    (t = None -> N <= length f + 1) ->
    acorr_complex W aligned f t fs n norm method aout =
    Ok (acorr_tuple_sq (plus_cells (cmon K) (start (c0 K) cor N) (fun i => Sum (cmon K) (upairs_at i (samples f t)) (@cx_prod_ordered K)))
          count sq ds N nm (fun i => upairs_at i (samples f t)) (fun i => upairs_at i (samples s t))).
  Proof.
    intros HV HD Hm HM HNm HS HU HC Hc Hs Hd HN. unfold acorr_complex.
    apply (@acorr_gen_tuple_sq (cmon K)) with (m := m) (ds2 := ds2); auto.
    - intros c [a b]. unfold cx_prod_ordered, map_pair, shift_time, delay; cbn [fst snd].
      replace (snd a - c <=? snd b - c)%Z with (snd a <=? snd b)%Z by lia. reflexivity.
    - intros c V1 N1 D1 M1 R1. exact (@any_auto_corr_complex f (sh c t) N V1 N1 D1 m M1 aligned cor R1).
  Qed.


  Theorem acorr_tuple_real aligned (f : list C) t fs n norm nm method m aout cor count sq ds ds2 N :
    valid_auto f t -> distinct (samples f t) ->
    _default_method method n = Ok m -> method_ok_auto m f t N -> _default_norm norm m false = Ok nm ->
    squares_ok f fs -> unpack_aout false aout = Ok (cor, count, sq, ds, ds2) ->
    cells_ok_auto f t n cor N -> right_length count N -> right_length sq N -> right_length ds N ->
    (t = None -> N <= length f + 1) ->
    acorr W aligned f t fs n norm method aout =
    Ok (acorr_tuple (plus_cells (fmon K) (start (f0 K) cor N) (fun i => Sum (fmon K) (upairs_at i (samples f t)) (@re_prod K)))
          count sq ds N nm (fun i => upairs_at i (samples f t))).
  Proof.
    intros HV HD Hm HM HNm HS HU HC Hc Hs Hd HN.
    rewrite (@acorr_tuple_real_sq aligned f t fs (abs2 f) n norm nm method m aout cor count sq ds ds2 N)
      by (auto using squares_ok_given).
    unfold acorr_tuple_sq, acorr_tuple. do 2 f_equal. destruct (has_flag nm NORM_STRUCTURED); [|reflexivity].
    f_equal. apply plus_cells_eq. intros i. unfold abs2. rewrite !samples_map. rewrite upairs_at_map by reflexivity. apply Sum_map.
  Qed.
  Theorem acorr_tuple_complex aligned (f : list C) t fs n norm nm method m aout cor count sq ds ds2 N :
    valid_auto f t -> distinct (samples f t) ->
    _default_method method n = Ok m -> method_ok_auto m f t N -> _default_norm norm m false = Ok nm ->
    squares_ok f fs -> unpack_aout false aout = Ok (cor, count, sq, ds, ds2) ->
    cells_ok_auto f t n cor N -> right_length count N -> right_length sq N -> right_length ds N ->
    (t = None -> N <= length f + 1) ->
    acorr_complex W aligned f t fs n norm method aout =
    Ok (acorr_tuple (plus_cells (cmon K) (start (c0 K) cor N) (fun i => Sum (cmon K) (upairs_at i (samples f t)) (@cx_prod_ordered K)))
          count sq ds N nm (fun i => upairs_at i (samples f t))).
  Proof.
    intros HV HD Hm HM HNm HS HU HC Hc Hs Hd HN.
    rewrite (@acorr_tuple_complex_sq aligned f t fs (abs2 f) n norm nm method m aout cor count sq ds ds2 N)
      by (auto using squares_ok_given).
    unfold acorr_tuple_sq, acorr_tuple. do 2 f_equal. destruct (has_flag nm NORM_STRUCTURED); [|reflexivity].
    f_equal. apply plus_cells_eq. intros i. unfold abs2. rewrite !samples_map. rewrite upairs_at_map by reflexivity. apply Sum_map.
  Qed.

  Theorem acorr_diff_tuple aligned (f : list C) t fs n norm nm aout cor count N :
    valid_auto f t -> _default_norm norm "diff" false = Ok nm ->
    unpack_aout true aout = Ok (cor, count, None, None, None) ->
    cells_ok_auto f t n cor N -> right_length count N -> (t = None -> N <= length f + 1) ->
    acorr W aligned f t fs n norm (Some "diff") aout =
    Ok (DDiff (plus_cells (fmon K) (start (f0 K) cor N) (fun i => Sum (fmon K) (upairs_at i (samples f t)) (@sq_diff K)))
          (plus_cells natmon (start 0 count N) (fun i => length (upairs_at i (samples f t)))) None None).
  Proof.
    intros HV HNm HU HC Hc HN. unfold acorr, acorr_gen.
    cbn [_default_method String.eqb Ascii.eqb Bool.eqb orb bind]. rewrite HNm. cbn [bind]. rewrite HU. cbn [bind].
    destruct (@inspect_auto_ok C f t n (option_map (@length K) cor) HV) as (c & t' & N' & EI & Et & P1 & P2 & P3).
    cbn [mcar fmon] in *. rewrite EI. cbn [bind]. subst t'.
    assert (EN : N' = N) by (eapply (@resolve_N_auto K); eauto). subst N'.
    assert (HV' := @sh_valid_auto _ f c t HV).
    assert (HN' : sh c t = None -> N <= length f + 1) by (destruct t; [discriminate|auto]).
    destruct (sh_samples f c t) as (c' & ES & _).
    etransitivity; [apply f_equal2; [exact (@any_auto_diff f (sh c t) N HV' HN' aligned cor (proj2 HC))|reflexivity]|]. cbn [bind].
    etransitivity; [apply f_equal2; [exact (@any_auto_count f (sh c t) N HV' count Hc)|reflexivity]|]. cbn [bind].
    rewrite !andb_false_r. cbn [bind]. f_equal. f_equal.
    - apply plus_cells_eq. intros i. rewrite ES. apply (@shift_upairs_sum (fmon K)). intros [a b]. reflexivity.
    - apply plus_cells_eq. intros i. rewrite ES. rewrite upairs_at_map by (intros; apply delay_shift). apply map_length.
  Qed.
End Data2.
