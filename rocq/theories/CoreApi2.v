(** Further final forms: frames, auto_sum, symmetries, default sizes, folding. *)
From Verif Require Import Base Kernels PairSpec KernelProofs PairLemmas RegularProofs SumProofs CoreModel
  CoreProofs CoreProofs2 CoreProofs3 VecModel VecProofs CoreApi.
From Coq Require Import ZifyBool ZifyNat.
Ltac Zify.zify_post_hook ::= Z.div_mod_to_equations.
Set Implicit Arguments.

Lemma nth_map_seq_gen A (g : nat -> A) a n k d : (k < n)%nat -> nth k (map g (seq a n)) d = g (a + k)%nat.
Proof.
  intros H. rewrite (nth_indep _ _ (g 0%nat)) by (rewrite map_length, seq_length; exact H).
  rewrite map_nth, seq_nth by exact H. reflexivity.
Qed.

(** ** C05: every pixel is processed on its own *)
Section Frames.
  Variable K : Fld.
  Variable w : nat.
  Notation C := (Cx K).
  Notation zpix := (pixel (c0 K)).
  Notation kpix := (pixel (f0 K)).
  Definition rect_opt {A} (aout : option (list (list A))) : Prop :=
    match aout with Some o => rect w o | None => True end.

  Ltac crossf M vecpix keeps := intros R1 R2 Ra; split;
    [intros out E p Hp; refine (@run_frames_pixel C (c0 K) M w _ _ _ _ (@keeps K) _ _ _ _ _ _ _ _ p Hp R1 R2 Ra out E);
       intros; apply vecpix; assumption
    |intros Hw HS; exact (@run_frames_exists C (c0 K) M w _ _ _ _ _ _ _ _ _ _ _ Hw HS Ra)].

  Lemma cross_correlate_frames_pixel (f1 f2 : list (list C)) t1 t2 n aligned aout :
    rect w f1 -> rect w f2 -> rect_opt aout ->
    (forall out, cross_correlate_frames w f1 f2 t1 t2 n aligned aout = Ok out ->
       forall p, (p < w)%nat ->
       cross_correlate (zpix p f1) (zpix p f2) t1 t2 n aligned (option_map (kpix p) aout) = Ok (kpix p out)) /\
    ((0 < w)%nat ->
     (forall p, (p < w)%nat -> exists o,
        cross_correlate (zpix p f1) (zpix p f2) t1 t2 n aligned (option_map (kpix p) aout) = Ok o) ->
     exists out, cross_correlate_frames w f1 f2 t1 t2 n aligned aout = Ok out).
  Proof. crossf (fmon K) _cross_corr_vec_pixel keeps_cross_corr. Qed.

  Lemma cross_correlate_complex_frames_pixel (f1 f2 : list (list C)) t1 t2 n aligned aout :
    rect w f1 -> rect w f2 -> rect_opt aout ->
    (forall out, cross_correlate_complex_frames w f1 f2 t1 t2 n aligned aout = Ok out ->
       forall p, (p < w)%nat ->
       cross_correlate_complex (zpix p f1) (zpix p f2) t1 t2 n aligned (option_map (zpix p) aout) = Ok (zpix p out)) /\
    ((0 < w)%nat ->
     (forall p, (p < w)%nat -> exists o,
        cross_correlate_complex (zpix p f1) (zpix p f2) t1 t2 n aligned (option_map (zpix p) aout) = Ok o) ->
     exists out, cross_correlate_complex_frames w f1 f2 t1 t2 n aligned aout = Ok out).
  Proof. crossf (cmon K) _cross_corr_complex_vec_pixel keeps_cross_corr_complex. Qed.

  Lemma cross_difference_frames_pixel (f1 f2 : list (list C)) t1 t2 n aligned aout :
    rect w f1 -> rect w f2 -> rect_opt aout ->
    (forall out, cross_difference_frames w f1 f2 t1 t2 n aligned aout = Ok out ->
       forall p, (p < w)%nat ->
       cross_difference (zpix p f1) (zpix p f2) t1 t2 n aligned (option_map (kpix p) aout) = Ok (kpix p out)) /\
    ((0 < w)%nat ->
     (forall p, (p < w)%nat -> exists o,
        cross_difference (zpix p f1) (zpix p f2) t1 t2 n aligned (option_map (kpix p) aout) = Ok o) ->
     exists out, cross_difference_frames w f1 f2 t1 t2 n aligned aout = Ok out).
  Proof. crossf (fmon K) _cross_diff_vec_pixel keeps_cross_diff. Qed.

  Ltac autof M vecpix keeps := intros R1 Ra; split;
    [intros out E p Hp; refine (@run_auto_frames_pixel C (c0 K) M w _ _ _ (@keeps K) _ _ _ _ _ _ p Hp R1 Ra out E);
       intros; apply vecpix; assumption
    |intros Hw HS; exact (@run_auto_frames_exists C (c0 K) M w _ _ _ _ _ _ _ _ Hw HS Ra)].

  Lemma auto_correlate_frames_pixel (f : list (list C)) t n aligned aout :
    rect w f -> rect_opt aout ->
    (forall out, auto_correlate_frames w f t n aligned aout = Ok out ->
       forall p, (p < w)%nat ->
       auto_correlate (zpix p f) t n aligned (option_map (kpix p) aout) = Ok (kpix p out)) /\
    ((0 < w)%nat ->
     (forall p, (p < w)%nat -> exists o,
        auto_correlate (zpix p f) t n aligned (option_map (kpix p) aout) = Ok o) ->
     exists out, auto_correlate_frames w f t n aligned aout = Ok out).
  Proof. autof (fmon K) _auto_corr_vec_pixel keeps_auto_corr. Qed.
  Lemma auto_correlate_complex_frames_pixel (f : list (list C)) t n aligned aout :
    rect w f -> rect_opt aout ->
    (forall out, auto_correlate_complex_frames w f t n aligned aout = Ok out ->
       forall p, (p < w)%nat ->
       auto_correlate_complex (zpix p f) t n aligned (option_map (zpix p) aout) = Ok (zpix p out)) /\
    ((0 < w)%nat ->
     (forall p, (p < w)%nat -> exists o,
        auto_correlate_complex (zpix p f) t n aligned (option_map (zpix p) aout) = Ok o) ->
     exists out, auto_correlate_complex_frames w f t n aligned aout = Ok out).
  Proof. autof (cmon K) _auto_corr_complex_vec_pixel keeps_auto_corr_complex. Qed.
  Lemma auto_difference_frames_pixel (f : list (list C)) t n aligned aout :
    rect w f -> rect_opt aout ->
    (forall out, auto_difference_frames w f t n aligned aout = Ok out ->
       forall p, (p < w)%nat ->
       auto_difference (zpix p f) t n aligned (option_map (kpix p) aout) = Ok (kpix p out)) /\
    ((0 < w)%nat ->
     (forall p, (p < w)%nat -> exists o,
        auto_difference (zpix p f) t n aligned (option_map (kpix p) aout) = Ok o) ->
     exists out, auto_difference_frames w f t n aligned aout = Ok out).
  Proof. autof (fmon K) _auto_diff_vec_pixel keeps_auto_diff. Qed.
End Frames.

(** ** C09 *)
Lemma auto_sum_means (G : QGrp) (f : list G) t n :
  valid_auto f t -> distinct (samples f t) -> (t = None -> n <= length f + 1)%nat ->
  auto_sum G f t (Some n) None = Ok (map (asum_spec G (ahalf G) (samples f t)) (seq 0 n)).
Proof.
  intros HV HD Hn. rewrite auto_sum_fresh by assumption. f_equal. apply map_ext. intros k.
  apply auto_sum_value_distinct. exact HD.
Qed.

(** ** C11 *)
Section Sym.
  Variable K : Fld.
  Add Field Kfield : (flaw K).
  Notation C := (Cx K).

  Lemma add_sub c (t : list Z) : map (fun x => x + c)%Z t = map (fun x => x - (- c))%Z t.
  Proof. apply map_ext. intros. lia. Qed.
  Notation later c := (map (fun x => x + c)%Z).

  Lemma shift_invariance (f1 f2 : list C) t1 t2 c n aligned aout :
    cross_correlate f1 f2 (Some (later c t1)) (Some (later c t2)) n aligned aout =
      cross_correlate f1 f2 (Some t1) (Some t2) n aligned aout /\
    (forall aoutc, cross_correlate_complex f1 f2 (Some (later c t1)) (Some (later c t2)) n aligned aoutc =
      cross_correlate_complex f1 f2 (Some t1) (Some t2) n aligned aoutc) /\
    cross_difference f1 f2 (Some (later c t1)) (Some (later c t2)) n aligned aout =
      cross_difference f1 f2 (Some t1) (Some t2) n aligned aout /\
    auto_correlate f1 (Some (later c t1)) n aligned aout = auto_correlate f1 (Some t1) n aligned aout /\
    (forall aoutc, auto_correlate_complex f1 (Some (later c t1)) n aligned aoutc =
      auto_correlate_complex f1 (Some t1) n aligned aoutc) /\
    auto_difference f1 (Some (later c t1)) n aligned aout = auto_difference f1 (Some t1) n aligned aout.
  Proof.
    rewrite !(add_sub c).
    split; [exact (@run_cross_shift C (fmon K) false _ _ (- c) f1 f2 t1 t2 n aligned aout)|].
    split; [intros aoutc; exact (@run_cross_shift C (cmon K) true _ _ (- c) f1 f2 t1 t2 n aligned aoutc)|].
    split; [exact (@run_cross_shift C (fmon K) false _ _ (- c) f1 f2 t1 t2 n aligned aout)|].
    split; [exact (@run_auto_shift C (fmon K) _ _ (- c) f1 t1 n aligned aout)|].
    split; [intros aoutc; exact (@run_auto_shift C (cmon K) _ _ (- c) f1 t1 n aligned aoutc)|].
    exact (@run_auto_shift C (fmon K) _ _ (- c) f1 t1 n aligned aout).
  Qed.

  Lemma order_invariance (f1 f2 f1' f2' : list C) t1 t2 t1' t2' n aligned :
    valid_cross f1 f2 (Some t1) (Some t2) -> length f1' = length t1' -> length f2' = length t2' ->
    Permutation (combine f1 t1) (combine f1' t1') -> Permutation (combine f2 t2) (combine f2' t2') ->
    cross_correlate f1' f2' (Some t1') (Some t2') (Some n) aligned None =
      cross_correlate f1 f2 (Some t1) (Some t2) (Some n) aligned None /\
    ((0 < n)%nat -> cross_correlate_complex f1' f2' (Some t1') (Some t2') (Some n) aligned None =
      cross_correlate_complex f1 f2 (Some t1) (Some t2) (Some n) aligned None) /\
    cross_difference f1' f2' (Some t1') (Some t2') (Some n) aligned None =
      cross_difference f1 f2 (Some t1) (Some t2) (Some n) aligned None.
  Proof.
    intros HV L1 L2 P1 P2. assert (HV' : valid_cross f1' f2' (Some t1') (Some t2')) by (eapply samples_perm_valid; [exact HV|..]; assumption).
    split; [|split; [intros Hn|]].
    - rewrite !cross_correlate_fresh by (assumption || discriminate). f_equal. apply map_ext. intros k.
      symmetry. apply corr_spec_perm; assumption.
    - rewrite !cross_correlate_complex_fresh by (assumption || discriminate). f_equal. apply map_ext. intros k.
      symmetry. apply corr_complex_spec_perm; assumption.
    - rewrite !cross_difference_fresh by (assumption || discriminate). f_equal. apply map_ext. intros k.
      symmetry. apply diff_spec_perm; assumption.
  Qed.

  Lemma auto_order_invariance (f f' : list C) t t' n aligned :
    valid_auto f (Some t) -> length f' = length t' -> Permutation (combine f t) (combine f' t') ->
    auto_correlate f' (Some t') (Some n) aligned None = auto_correlate f (Some t) (Some n) aligned None /\
    auto_difference f' (Some t') (Some n) aligned None = auto_difference f (Some t) (Some n) aligned None /\
    (NoDup t -> auto_correlate_complex f' (Some t') (Some n) aligned None =
                auto_correlate_complex f (Some t) (Some n) aligned None).
  Proof.
    intros [H1 H2] L P.
    assert (HV : valid_auto f (Some t)) by (split; assumption).
    assert (HV' : valid_auto f' (Some t')).
    { pose proof (Permutation_length P) as E. rewrite !combine_length in E. pose proof (len_nonnil H2).
      split; [lia|]. destruct f'; [simpl in *; lia|congruence]. }
    split; [|split; [|intros HN]].
    - rewrite !auto_correlate_fresh by (assumption || discriminate). f_equal. apply map_ext. intros k.
      symmetry. apply acorr_spec_perm; assumption.
    - rewrite !auto_difference_fresh by (assumption || discriminate). f_equal. apply map_ext. intros k.
      symmetry. apply adiff_spec_perm; assumption.
    - rewrite !auto_correlate_complex_fresh by (assumption || discriminate). f_equal. apply map_ext. intros k.
      symmetry. apply acorr_complex_spec_perm; [|assumption]. apply combine_distinct; auto.
  Qed.

  Lemma swap_cond (f1 f2 : list C) t1 t2 n aligned : valid_cross f1 f2 t1 t2 ->
    (t1 = None -> aligned = true -> n <= length f1 + 1)%nat ->
    (t2 = None -> aligned = true -> n <= length f2 + 1)%nat.
  Proof.
    intros [HL HV] H E A. destruct t1, t2; try contradiction; try discriminate. rewrite <- HL. auto.
  Qed.

  (** Exchanging the signals: the real data is unchanged, the complex data is
      conjugated and the delays are reversed. *)
  Lemma swap_signals (f1 f2 : list C) t1 t2 n aligned :
    valid_cross f1 f2 t1 t2 -> (t1 = None -> aligned = true -> n <= length f1 + 1)%nat ->
    cross_correlate f2 f1 t2 t1 (Some n) aligned None = cross_correlate f1 f2 t1 t2 (Some n) aligned None /\
    cross_difference f2 f1 t2 t1 (Some n) aligned None = cross_difference f1 f2 t1 t2 (Some n) aligned None.
  Proof.
    intros HV Hn. pose proof (@swap_cond f1 f2 t1 t2 n aligned HV Hn) as Hn'. pose proof (valid_cross_swap HV) as HV'. split.
    - rewrite !cross_correlate_fresh by assumption. f_equal. apply map_ext. intros k. apply corr_spec_swap.
    - rewrite !cross_difference_fresh by assumption. f_equal. apply map_ext. intros k. apply diff_spec_swap.
  Qed.
  Lemma swap_signals_complex (f1 f2 : list C) t1 t2 n aligned :
    valid_cross f1 f2 t1 t2 -> (0 < n)%nat -> (t1 = None -> aligned = true -> n <= length f1 + 1)%nat ->
    exists out, cross_correlate_complex f1 f2 t1 t2 (Some n) aligned None = Ok out /\
      cross_correlate_complex f2 f1 t2 t1 (Some n) aligned None =
      Ok (map conj (firstn 1 out ++ rev (skipn 1 out))).
  Proof.
    intros HV H0 Hn. pose proof (@swap_cond f1 f2 t1 t2 n aligned HV Hn) as Hn'. pose proof (valid_cross_swap HV) as HV'.
    eexists. split; [apply cross_correlate_complex_fresh; assumption|].
    rewrite cross_correlate_complex_fresh by assumption. f_equal.
    set (S := corr_complex_spec (samples f1 t1) (samples f2 t2)).
    assert (E : forall m, corr_complex_spec (samples f2 t2) (samples f1 t1) m = conj (S (- m)%Z)).
    { intros m. apply corr_complex_spec_swap. }
    replace (2 * n - 1)%nat with (Datatypes.S (2 * n - 2)) by lia. cbn [seq map firstn skipn app].
    rewrite E. f_equal; [f_equal; unfold lag_at; replace (0 <? n)%nat with true by lia; reflexivity|].
    apply (@list_nth_ext _ _ _ (c0 K)); [rewrite !map_length, rev_length, map_length; reflexivity|].
    rewrite map_length, seq_length. intros k Hk.
    rewrite nth_map_seq_gen by lia. rewrite E.
    rewrite (nth_indep _ _ (conj (c0 K))) by (rewrite map_length, rev_length, map_length, seq_length; lia).
    rewrite map_nth, rev_nth by (rewrite map_length, seq_length; lia).
    rewrite map_length, seq_length. rewrite nth_map_seq_gen by lia. f_equal. f_equal.
    unfold lag_at. destruct (1 + k <? n)%nat eqn:E1, (1 + (2 * n - 2 - Datatypes.S k) <? n)%nat eqn:E2; lia.
  Qed.

  (** ** C15: folding complex data onto real data *)
  Lemma fold_correlate (f1 f2 : list C) t1 t2 n aligned :
    valid_cross f1 f2 t1 t2 -> (0 < n)%nat -> (t1 = None -> aligned = true -> n <= length f1 + 1)%nat ->
    exists z r, cross_correlate_complex f1 f2 t1 t2 (Some n) aligned None = Ok z /\
      cross_correlate f1 f2 t1 t2 (Some n) aligned None = Ok r /\ length r = n /\ length z = (2 * n - 1)%nat /\
      nth 0 r (f0 K) = cre (nth 0 z (c0 K)) /\
      forall k, (1 <= k < n)%nat ->
        nth k r (f0 K) = cre (cadd (nth k z (c0 K)) (nth (length z - k) z (c0 K))).
  Proof.
    intros HV H0 Hn. destruct (@cross_correlate_complex_entries K f1 f2 t1 t2 n aligned HV H0 Hn) as (z & Ez & Lz & Hp & Hm).
    exists z. eexists. split; [exact Ez|]. split; [apply cross_correlate_fresh; assumption|].
    rewrite map_length, seq_length. repeat split; auto.
    - rewrite nth_map_seq by lia. rewrite Hp by lia. rewrite fold_corr. reflexivity.
    - intros k Hk. rewrite nth_map_seq by lia. rewrite Hp, Hm by lia. rewrite fold_corr.
      replace (k =? 0)%nat with false by lia. reflexivity.
  Qed.
  Lemma fold_counts t1 t2 n : (0 < n)%nat ->
    exists z r, cross_count t1 t2 (Some n) true None = Ok z /\ cross_count t1 t2 (Some n) false None = Ok r /\
      length r = n /\ length z = (2 * n - 1)%nat /\ nth 0 r 0%nat = nth 0 z 0%nat /\
      forall k, (1 <= k < n)%nat -> nth k r 0%nat = (nth k z 0 + nth (length z - k) z 0)%nat.
  Proof.
    intros H0. do 2 eexists. split; [apply cross_count_complex_fresh; exact H0|].
    split; [apply cross_count_real_fresh|]. rewrite !map_length, !seq_length. repeat split.
    - rewrite !nth_map_seq by lia. rewrite fold_count. rewrite lag_at_low by lia. reflexivity.
    - intros k Hk. rewrite !nth_map_seq by lia. rewrite fold_count, lag_at_low, lag_at_high by lia.
      replace (k =? 0)%nat with false by lia. reflexivity.
  Qed.

  (** ** C16 *)
  Lemma auto_half_of_cross (f : list C) t n aligned :
    valid_auto f t -> distinct (samples f t) -> (t = None -> aligned = true -> n <= length f + 1)%nat ->
    exists a ad c cd,
      auto_correlate f t (Some n) aligned None = Ok a /\ auto_difference f t (Some n) aligned None = Ok ad /\
      cross_correlate f f t t (Some n) aligned None = Ok c /\
      cross_difference f f t t (Some n) aligned None = Ok cd /\
      length a = n /\ length ad = n /\ length c = n /\ length cd = n /\
      forall k, (k < n)%nat ->
        nth k c (f0 K) = (if (k =? 0)%nat then nth k a (f0 K) else fadd K (nth k a (f0 K)) (nth k a (f0 K))) /\
        nth k cd (f0 K) = (if (k =? 0)%nat then nth k ad (f0 K) else fadd K (nth k ad (f0 K)) (nth k ad (f0 K))).
  Proof.
    intros HV HD Hn.
    assert (HV' : valid_cross f f t t) by (split; [reflexivity|]; destruct t; simpl in *; tauto).
    do 4 eexists. split; [apply auto_correlate_fresh; assumption|]. split; [apply auto_difference_fresh; assumption|].
    split; [apply cross_correlate_fresh; assumption|]. split; [apply cross_difference_fresh; assumption|].
    rewrite !map_length, seq_length. repeat split; auto; rewrite !nth_map_seq by assumption;
      [apply acorr_cross|apply adiff_cross]; exact HD.
  Qed.
  Lemma auto_complex_of_cross (f : list C) t n aligned :
    valid_auto f t -> distinct (samples f t) -> (0 < n)%nat -> (t = None -> aligned = true -> n <= length f + 1)%nat ->
    exists a c, auto_correlate_complex f t (Some n) aligned None = Ok a /\
      cross_correlate_complex f f t t (Some n) aligned None = Ok c /\ a = firstn n c.
  Proof.
    intros HV HD H0 Hn.
    assert (HV' : valid_cross f f t t) by (split; [reflexivity|]; destruct t; simpl in *; tauto).
    do 2 eexists. split; [apply auto_correlate_complex_fresh; assumption|].
    split; [apply cross_correlate_complex_fresh; assumption|].
    apply (@list_nth_ext _ _ _ (c0 K)).
    - rewrite firstn_length, !map_length, !seq_length. lia.
    - rewrite map_length, seq_length. intros k Hk. rewrite nth_firstn by exact Hk.
      rewrite !nth_map_seq by lia. rewrite lag_at_low by exact Hk. symmetry. apply acorr_complex_cross. exact HD.
  Qed.
End Sym.

Lemma auto_count_of_cross t n : NoDup (targ_times t) ->
  exists a c, auto_count t (Some n) None = Ok a /\ cross_count t None (Some n) false None = Ok c /\
    length a = n /\ length c = n /\
    forall k, (k < n)%nat -> nth k c 0%nat = (if (k =? 0)%nat then nth k a 0 else 2 * nth k a 0)%nat.
Proof.
  intros HN. do 2 eexists. split; [apply auto_count_fresh|]. split; [apply cross_count_real_fresh|].
  rewrite !map_length, seq_length. repeat split. intros k Hk. rewrite !nth_map_seq by exact Hk.
  unfold targ_opt. rewrite acount_cross.
  - destruct (k =? 0)%nat; lia.
  - unfold distinct. rewrite snd_times. exact HN.
Qed.

Lemma auto_sum_of_cross (G : QGrp) (f : list G) t n inv :
  valid_auto f t -> distinct (samples f t) -> (t = None -> n <= length f + 1)%nat ->
  exists a c, auto_sum G f t (Some n) None = Ok a /\ cross_sum G f t t (Some n) false inv None = Ok c /\
    length a = n /\ length c = n /\
    forall k, (k < n)%nat ->
      nth k c (m0 G) = (if (k =? 0)%nat then nth k a (m0 G) else madd G (nth k a (m0 G)) (nth k a (m0 G))).
Proof.
  intros HV HD Hn.
  assert (HV' : valid_sum f t t).
  { destruct t as [t|]; simpl in *; [|exact I]. destruct HV as [H1 H2]. repeat split; auto.
    eapply nonnil_len; [exact H1|exact H2]. }
  do 2 eexists. split; [apply auto_sum_fresh; assumption|]. split; [apply cross_sum_real_fresh; assumption|].
  rewrite !map_length, seq_length. repeat split. intros k Hk. rewrite !nth_map_seq by exact Hk.
  etransitivity; [|apply sum_cross_auto; exact HD].
  rewrite times_of_samples; [apply sum_spec_values|]. destruct t; [apply HV|exact I].
Qed.

(** ** C11 for sums and counts *)
Notation later c := (map (fun x => x + c)%Z).

Lemma combine_later A c (f : list A) t : combine f (later c t) = map (shift_time (- c)) (combine f t).
Proof. rewrite add_sub. apply combine_shift. Qed.
Lemma times_later c t : times (later c t) = map (shift_time (- c)) (times t).
Proof. rewrite add_sub. apply times_shift. Qed.
Lemma nonnil_map A B (f : A -> B) l : l <> [] -> map f l <> [].
Proof. destruct l; [congruence|discriminate]. Qed.

Lemma sum_shift_invariance (G : QGrp) (f : list G) t t_other c n complex inv :
  valid_sum f (Some t) (Some t_other) -> (0 < n)%nat ->
  cross_sum G f (Some (later c t)) (Some (later c t_other)) (Some n) complex inv None =
  cross_sum G f (Some t) (Some t_other) (Some n) complex inv None.
Proof.
  intros HV Hn.
  assert (HV' : valid_sum f (Some (later c t)) (Some (later c t_other))).
  { destruct HV as (H1 & H2 & H3). split; [rewrite map_length; exact H1|]. split; [exact H2|apply nonnil_map; exact H3]. }
  destruct complex.
  - rewrite !cross_sum_complex_fresh by (assumption || discriminate). f_equal. apply map_ext. intros k. simpl samples.
    simpl other_times. rewrite combine_later, times_later. destruct inv; apply sum_signed_spec_shift.
  - rewrite !cross_sum_real_fresh by (assumption || discriminate). f_equal. apply map_ext. intros k. simpl samples.
    simpl other_times. rewrite combine_later, times_later. apply sum_spec_shift.
Qed.
Lemma auto_sum_shift_invariance (G : QGrp) (f : list G) t c n :
  valid_auto f (Some t) ->
  auto_sum G f (Some (later c t)) (Some n) None = auto_sum G f (Some t) (Some n) None.
Proof.
  intros HV.
  assert (HV' : valid_auto f (Some (later c t))) by (destruct HV; split; [rewrite map_length|]; assumption).
  rewrite !auto_sum_fresh by (assumption || discriminate). f_equal. apply map_ext. intros k. simpl samples.
  rewrite combine_later. unfold auto_sum_value. destruct (k =? 0)%nat; [apply sum_spec_shift|].
  unfold asum_spec. rewrite (@upairs_at_map _ _ (shift_time (- c))) by (intros; apply delay_shift).
  rewrite Sum_map. reflexivity.
Qed.

Lemma count_shift_invariance t1 t2 c n : (0 < n)%nat ->
  cross_count (TArray (later c t1)) (Some (TArray (later c t2))) (Some n) false None =
    cross_count (TArray t1) (Some (TArray t2)) (Some n) false None /\
  cross_count (TArray (later c t1)) (Some (TArray (later c t2))) (Some n) true None =
    cross_count (TArray t1) (Some (TArray t2)) (Some n) true None /\
  auto_count (TArray (later c t1)) (Some n) None = auto_count (TArray t1) (Some n) None.
Proof.
  intros Hn. split; [|split].
  - rewrite !cross_count_real_fresh. f_equal. apply map_ext. intros k. simpl. rewrite !times_later.
    rewrite pairs_at_map by (intros; apply delay_shift). apply map_length.
  - rewrite !cross_count_complex_fresh by exact Hn. f_equal. apply map_ext. intros k. simpl. rewrite !times_later.
    rewrite pairs_signed_map by (intros; apply delay_shift). apply map_length.
  - rewrite !auto_count_fresh. f_equal. apply map_ext. intros k. simpl. rewrite !times_later.
    rewrite upairs_at_map by (intros; apply delay_shift). apply map_length.
Qed.

Lemma times_perm t t' : Permutation t t' -> Permutation (times t) (times t').
Proof. apply Permutation_map. Qed.

Lemma count_order_invariance t1 t2 t1' t2' n : (0 < n)%nat -> Permutation t1 t1' -> Permutation t2 t2' ->
  cross_count (TArray t1) (Some (TArray t2)) (Some n) false None =
    cross_count (TArray t1') (Some (TArray t2')) (Some n) false None /\
  cross_count (TArray t1) (Some (TArray t2)) (Some n) true None =
    cross_count (TArray t1') (Some (TArray t2')) (Some n) true None /\
  auto_count (TArray t1) (Some n) None = auto_count (TArray t1') (Some n) None.
Proof.
  intros Hn P1 P2. split; [|split].
  - rewrite !cross_count_real_fresh. f_equal. apply map_ext. intros k. simpl.
    rewrite <- !Sum_nat_1. apply Sum_Permutation. apply pairs_at_perm; apply times_perm; assumption.
  - rewrite !cross_count_complex_fresh by exact Hn. f_equal. apply map_ext. intros k. simpl.
    rewrite <- !Sum_nat_1. apply Sum_Permutation. apply pairs_signed_perm; apply times_perm; assumption.
  - rewrite !auto_count_fresh. f_equal. apply map_ext. intros k. simpl.
    rewrite <- !Sum_nat_1. apply (Sum_upairs_at_perm natmon); [reflexivity|]. apply times_perm; assumption.
Qed.

Lemma sum_order_invariance (G : QGrp) (f f' : list G) t t' u u' n complex inv :
  valid_sum f (Some t) (Some u) -> (0 < n)%nat -> length f' = length t' ->
  Permutation (combine f t) (combine f' t') -> Permutation u u' ->
  cross_sum G f' (Some t') (Some u') (Some n) complex inv None =
  cross_sum G f (Some t) (Some u) (Some n) complex inv None.
Proof.
  intros HV Hn L P1 P2.
  assert (HV' : valid_sum f' (Some t') (Some u')).
  { destruct HV as (H1 & H2 & H3). pose proof (Permutation_length P1) as E. rewrite !combine_length in E.
    pose proof (len_nonnil H2). split; [lia|]. split; [destruct f'; [simpl in *; lia|congruence]|].
    intros ->. apply H3. apply Permutation_nil. symmetry. exact P2. }
  apply times_perm in P2.
  destruct complex.
  - rewrite !cross_sum_complex_fresh by (assumption || discriminate). f_equal. apply map_ext. intros k.
    simpl samples. simpl other_times. destruct inv; symmetry; apply Sum_Permutation; apply pairs_signed_perm; assumption.
  - rewrite !cross_sum_real_fresh by (assumption || discriminate). f_equal. apply map_ext. intros k.
    simpl samples. simpl other_times. symmetry; apply Sum_Permutation; apply pairs_at_perm; assumption.
Qed.

(** ** C02: the documented formula *)
Section Documented.
  Variable K : Fld.
  Add Field Kfield2 : (flaw K).
  Lemma documented_is_conj (d1 d2 : list (sample (Cx K))) m :
    Sum (cmon K) (pairs_signed m d1 d2) (fun p => cmul (fst (fst p)) (conj (fst (snd p)))) =
    conj (corr_complex_spec d1 d2 m).
  Proof.
    unfold corr_complex_spec. rewrite conj_Sum. apply Sum_ext. intros [[a ta] [b tb]] _.
    unfold cx_prod, cmul, conj, cre, cim; cbn [fst snd]. f_equal; ring.
  Qed.

  Lemma opp_sq (a : K) : fmul K (fopp K a) (fopp K a) = fmul K a a.
  Proof. ring. Qed.
End Documented.

Lemma Qc_sq_nonneg a : Qcanon.Qcle (Qcanon.Q2Qc (QArith_base.inject_Z 0)) a ->
  Qcanon.Qcle (Qcanon.Q2Qc (QArith_base.inject_Z 0)) (Qcanon.Qcmult a a).
Proof.
  intros H. pose proof (@Qcanon.Qcmult_le_compat_r _ _ a H H) as E. rewrite Qcanon.Qcmult_0_l in E. exact E.
Qed.

(** ** C06: rational instance of non-negativity *)
Lemma difference_nonneg (f1 f2 : list (Cx QcF)) t1 t2 n aligned out :
  valid_cross f1 f2 t1 t2 -> (t1 = None -> aligned = true -> n <= length f1 + 1)%nat ->
  cross_difference f1 f2 t1 t2 (Some n) aligned None = Ok out ->
  Forall (fun x : Qcanon.Qc => Qcanon.Qcle (Qcanon.Q2Qc (QArith_base.inject_Z 0)) x) out.
Proof.
  intros HV Hn E. rewrite cross_difference_fresh in E by assumption. injection E as <-.
  apply Forall_forall. intros x Hx. apply in_map_iff in Hx. destruct Hx as (k & <- & _).
  apply (@diff_spec_nonneg QcF (fun x => Qcanon.Qcle (Qcanon.Q2Qc (QArith_base.inject_Z 0)) x)).
  - apply Qcanon.Qcle_refl.
  - intros a b Ha Hb. pose proof (Qcanon.Qcplus_le_compat _ _ _ _ Ha Hb) as H.
    rewrite Qcanon.Qcplus_0_l in H. exact H.
  - intros a. change (Qcanon.Qcle (Qcanon.Q2Qc (QArith_base.inject_Z 0)) (Qcanon.Qcmult a a)).
    destruct (Qcanon.Qclt_le_dec a (Qcanon.Q2Qc (QArith_base.inject_Z 0))) as [H|H].
    + replace (Qcanon.Qcmult a a) with (Qcanon.Qcmult (Qcanon.Qcopp a) (Qcanon.Qcopp a)) by (exact (@opp_sq QcF a)).
      apply Qc_sq_nonneg. apply Qcanon.Qclt_le_weak in H. apply Qcanon.Qcopp_le_compat in H. exact H.
    + apply Qc_sq_nonneg. exact H.
Qed.

(** ** C05: existence, and the sum kernels *)
Lemma valid_auto_pixel A (d : A) p (f : list (list A)) t : valid_auto f t -> valid_auto (pixel d p f) t.
Proof.
  destruct t as [t|]; simpl; [|auto]. rewrite pixel_length. intros [H1 H2]. split; [exact H1|].
  eapply nonnil_len; [apply pixel_length|exact H2].
Qed.
Lemma auto_frames_exist (K : Fld) w (f : list (list (Cx K))) t n aligned :
  rect w f -> (0 < w)%nat -> valid_auto f t -> (t = None -> aligned = true -> n <= length f + 1)%nat ->
  exists out outc outd,
    auto_correlate_frames w f t (Some n) aligned None = Ok out /\
    auto_correlate_complex_frames w f t (Some n) aligned None = Ok outc /\
    auto_difference_frames w f t (Some n) aligned None = Ok outd.
Proof.
  intros R Hw HV Hn.
  assert (H : forall p, valid_auto (pixel (c0 K) p f) t) by (intros; apply valid_auto_pixel; exact HV).
  assert (Hn' : forall p, (t = None -> aligned = true -> n <= length (pixel (c0 K) p f) + 1)%nat)
    by (intros; rewrite pixel_length; auto).
  destruct (@auto_correlate_frames_pixel K w f t (Some n) aligned None R I) as [_ H1].
  destruct (@auto_correlate_complex_frames_pixel K w f t (Some n) aligned None R I) as [_ H2].
  destruct (@auto_difference_frames_pixel K w f t (Some n) aligned None R I) as [_ H3].
  destruct H1 as [o1 E1]; [exact Hw|intros p _; eexists; apply auto_correlate_fresh; auto|].
  destruct H2 as [o2 E2]; [exact Hw|intros p _; eexists; apply auto_correlate_complex_fresh; auto|].
  destruct H3 as [o3 E3]; [exact Hw|intros p _; eexists; apply auto_difference_fresh; auto|].
  exists o1, o2, o3. auto.
Qed.
Lemma cross_sum_vec_pixels (G : QGrp) w p (f : list (list G)) t1 t2 out :
  (p < w)%nat -> rect w f -> length t1 = length f -> rect w out ->
  pixel (m0 G) p (_cross_sum_vec G f t1 t2 out) = _cross_sum G (pixel (m0 G) p f) t1 t2 (pixel (m0 G) p out) /\
  pixel (m0 G) p (_cross_sum_complex_vec G f t1 t2 out) =
    _cross_sum_complex G (pixel (m0 G) p f) t1 t2 (pixel (m0 G) p out).
Proof.
  intros Hp R HL Ro. split.
  - apply (@_cross_sum_vec_pixel G w p Hp f t1 t2 out (length out)); auto. split; auto.
  - apply (@_cross_sum_complex_vec_pixel G w p Hp f t1 t2 out (length out)); auto. split; auto.
Qed.

(** ** C10: a list of measurements *)
Lemma cross_correlate_sequence (K : Fld) n ds prev :
  Forall (fun d : (list (Cx K) * list Z) * (list (Cx K) * list Z) =>
            valid_cross (fst (fst d)) (fst (snd d)) (Some (snd (fst d))) (Some (snd (snd d)))) ds ->
  length prev = n ->
  exists out,
    accumulate (fun d aout => cross_correlate (fst (fst d)) (fst (snd d)) (Some (snd (fst d))) (Some (snd (snd d)))
                                (Some n) true aout) prev ds = Ok out /\
    length out = n /\
    forall k, (k < n)%nat -> nth k out (f0 K) =
      fadd K (nth k prev (f0 K))
        (Sum (fmon K) ds (fun d => corr_spec (combine (fst (fst d)) (snd (fst d)))
                                             (combine (fst (snd d)) (snd (snd d))) k)).
Proof.
  intros HV HL.
  destruct (@accumulate_fresh _ (fmon K)
    (fun d aout => cross_correlate (fst (fst d)) (fst (snd d)) (Some (snd (fst d))) (Some (snd (snd d)))
                                (Some n) true aout) n
    (fun d : (list (Cx K) * list Z) * (list (Cx K) * list Z) =>
            valid_cross (fst (fst d)) (fst (snd d)) (Some (snd (fst d))) (Some (snd (snd d))))
    ltac:(intros d p Hd Hp; apply cross_correlate_adds; [exact Hd|discriminate|exact Hp]) ds prev HV HL)
    as (out & E & Lo & Ho).
  exists out. split; [exact E|]. split; [exact Lo|]. intros k Hk. etransitivity; [exact (Ho k Hk)|].
  cbn [madd fmon m0]. f_equal. apply Sum_ext. intros d Hd.
  rewrite Forall_forall in HV. rewrite cross_correlate_fresh; [|apply HV; exact Hd|discriminate].
  rewrite nth_map_seq by exact Hk. reflexivity.
Qed.

(** ** C12 *)
Lemma default_conservation (K : Fld) (f1 f2 : list (Cx K)) t1 t2 aligned :
  valid_cross f1 f2 t1 t2 -> f1 <> [] ->
  exists N, covers (samples f1 t1) (samples f2 t2) N /\
    (exists out, cross_correlate f1 f2 t1 t2 None aligned None = Ok out /\ length out = N /\
       lsum (fmon K) out = Sum (fmon K) (list_prod (samples f1 t1) (samples f2 t2)) (@re_prod K)) /\
    (exists out, cross_correlate_complex f1 f2 t1 t2 None aligned None = Ok out /\ length out = (2 * N - 1)%nat /\
       lsum (cmon K) out = Sum (cmon K) (list_prod (samples f1 t1) (samples f2 t2)) (@cx_prod K)) /\
    (exists out, cross_difference f1 f2 t1 t2 None aligned None = Ok out /\ length out = N /\
       lsum (fmon K) out = Sum (fmon K) (list_prod (samples f1 t1) (samples f2 t2)) (@sq_diff K)).
Proof.
  intros HV Hne.
  assert (U : forall N N', covers (samples f1 t1) (samples f2 t2) N -> covers (samples f1 t1) (samples f2 t2) N' -> N = N').
  { intros N N' [A1 (p & Hp & Ep)] [B1 (p' & Hp' & Ep')]. specialize (A1 _ Hp'). specialize (B1 _ Hp). lia. }
  destruct (@cross_correlate_default K f1 f2 t1 t2 aligned HV Hne) as (N & E1 & C1 & S1).
  destruct (@cross_correlate_complex_default K f1 f2 t1 t2 aligned HV Hne) as (N2 & E2 & C2 & S2).
  destruct (@cross_difference_default K f1 f2 t1 t2 aligned HV Hne) as (N3 & E3 & C3).
  rewrite <- (U _ _ C1 C2) in *. rewrite <- (U _ _ C1 C3) in *.
  exists N. split; [exact C1|]. split; [|split].
  - eexists. split; [exact E1|]. split; [rewrite map_length; apply seq_length|exact S1].
  - eexists. split; [exact E2|]. split; [rewrite map_length; apply seq_length|exact S2].
  - eexists. split; [exact E3|]. split; [rewrite map_length; apply seq_length|].
    etransitivity; [apply (lsum_map_seq (fmon K))|]. apply (conserve_abs (fmon K)); exact C1.
Qed.
Lemma default_conservation_auto (K : Fld) (f : list (Cx K)) t aligned :
  valid_auto f t -> f <> [] ->
  exists N out, auto_correlate f t None aligned None = Ok out /\ length out = N /\
    covers (samples f t) (samples f t) N /\
    lsum (fmon K) out = Sum (fmon K) (upairs (samples f t)) (@re_prod K).
Proof.
  intros HV Hne. destruct (@auto_correlate_default K f t aligned HV Hne) as (N & E & C & S).
  exists N. eexists. split; [exact E|]. split; [rewrite map_length; apply seq_length|]. split; assumption.
Qed.
