(** The FFT-based functions of core.py against the direct ones. *)
From Verif Require Import Base Kernels PairSpec KernelProofs PairLemmas RegularProofs CoreModel CoreProofs CoreProofs2
  CoreProofs3 FftModel FftProofs FftProofs2.
From Coq Require Import ZifyBool ZifyNat.
Ltac Zify.zify_post_hook ::= Z.div_mod_to_equations.
Set Implicit Arguments.

Lemma covers_unique A B (d1 : list (sample A)) (d2 : list (sample B)) L N :
  covers d1 d2 L -> covers d1 d2 N -> (0 < N)%nat -> L = N.
Proof.
  intros [H1 (p & Hp & Ep)] [H2 (q & Hq & Eq)] H0.
  specialize (H1 q Hq). specialize (H2 p Hp). lia.
Qed.

Lemma covers_times A B (d1 : list (sample A)) (d2 : list (sample B)) L t1 t2 :
  map snd d1 = t1 -> map snd d2 = t2 -> covers d1 d2 L ->
  forall z y, In z t1 -> In y t2 -> (Z.abs (y - z) < Z.of_nat L)%Z.
Proof.
  intros <- <- [H _] z y Hz Hy. apply in_map_iff in Hz, Hy.
  destruct Hz as (s & <- & Hs), Hy as (s' & <- & Hs').
  apply (H (s, s')). apply in_prod_iff; auto.
Qed.

Lemma full_length_shift L c t1 t2 : t1 <> [] -> t2 <> [] ->
  _determine_full_length_cross L (Some (map (fun t => t - c)%Z t1, map (fun t => t - c)%Z t2)) =
  _determine_full_length_cross L (Some (t1, t2)).
Proof.
  intros H1 H2. unfold _determine_full_length_cross. rewrite !zmin_list_shift, !zmax_list_shift.
  destruct t1; [congruence|]. destruct t2; [congruence|]. cbn [zmin_list zmax_list bind]. do 2 f_equal. lia.
Qed.
Lemma full_length_auto_shift L c t : t <> [] ->
  _determine_full_length_auto L (Some (map (fun t => t - c)%Z t)) = _determine_full_length_auto L (Some t).
Proof.
  intros H. unfold _determine_full_length_auto. rewrite !zmin_list_shift, !zmax_list_shift.
  destruct t; [congruence|]. cbn [zmin_list zmax_list bind]. do 2 f_equal. lia.
Qed.

Lemma shifted_fits L t1 t2 m1 m2 :
  zmin_list t1 = Ok m1 -> zmin_list t2 = Ok m2 ->
  (forall z y, In z t1 -> In y t2 -> (Z.abs (y - z) < Z.of_nat L)%Z) ->
  fits (L * 2) (map (fun t => t - Z.min m1 m2)%Z t1) /\ fits (L * 2) (map (fun t => t - Z.min m1 m2)%Z t2).
Proof.
  intros H1 H2 H. destruct (zmin_list_spec _ H1) as [I1 L1], (zmin_list_spec _ H2) as [I2 L2].
  split; (split; [intros z Hz|intros z z' Hz Hz']).
  - apply in_map_iff in Hz. destruct Hz as (x & <- & Hx).
    pose proof (H _ _ Hx I2). pose proof (H _ _ I1 I2). pose proof (L1 _ Hx). lia.
  - apply in_map_iff in Hz, Hz'. destruct Hz as (x & <- & Hx), Hz' as (x' & <- & Hx').
    pose proof (H _ _ Hx I2). pose proof (H _ _ Hx' I2). lia.
  - apply in_map_iff in Hz. destruct Hz as (x & <- & Hx).
    pose proof (H _ _ I1 Hx). pose proof (H _ _ I1 I2). pose proof (L2 _ Hx). lia.
  - apply in_map_iff in Hz, Hz'. destruct Hz as (x & <- & Hx), Hz' as (x' & <- & Hx').
    pose proof (H _ _ I1 Hx). pose proof (H _ _ I1 Hx'). lia.
Qed.

Section MapCircular.
  Variables (A B A' B' : Type) (f : sample A -> sample A') (g : sample B -> sample B').
  Hypothesis Hd : forall a b, delay (f a, g b) = delay (a, b).
  Lemma pairs_circular_map N m d1 d2 :
    pairs_circular N m (map f d1) (map g d2) = map (map_pair f g) (pairs_circular N m d1 d2).
  Proof.
    unfold pairs_circular. rewrite list_prod_map, filter_map. f_equal. apply filter_ext.
    intros [a b]. unfold map_pair; simpl. rewrite Hd. reflexivity.
  Qed.
End MapCircular.

Lemma pairs_circular_neg A B N m (d1 : list (sample A)) (d2 : list (sample B)) : N <> 0%nat ->
  pairs_circular N m (map neg_time d1) (map neg_time d2) =
  map (map_pair neg_time neg_time) (pairs_circular N (- m) d1 d2).
Proof.
  intros HN. unfold pairs_circular. rewrite list_prod_map, filter_map. f_equal. apply filter_ext.
  intros [a b]. unfold map_pair; cbn [fst snd].
  replace (delay (neg_time a, neg_time b)) with (- delay (a, b))%Z by (unfold delay, neg_time; cbn [fst snd]; lia).
  set (n := Z.of_nat N). assert (n <> 0)%Z by (unfold n; lia). set (x := delay (a, b)).
  assert (G : forall u v, (u mod n = v mod n -> (- u) mod n = (- v) mod n)%Z).
  { intros u v E. rewrite <- (Z.sub_0_l u), <- (Z.sub_0_l v).
    rewrite <- Zminus_mod_idemp_r, E, Zminus_mod_idemp_r. reflexivity. }
  destruct (Z.eqb_spec ((- x) mod n) (m mod n)) as [E|E], (Z.eqb_spec (x mod n) ((- m) mod n)) as [E2|E2]; try reflexivity; exfalso.
  - apply E2. apply G in E. rewrite Z.opp_involutive in E. exact E.
  - apply E. apply G in E2. rewrite Z.opp_involutive in E2. exact E2.
Qed.

(** Circular correlation of two data sets. *)
Definition circ_corr (K : Fld) (N : nat) (d1 d2 : list (sample (Cx K))) (m : Z) : Cx K :=
  Sum (cmon K) (pairs_circular N m d1 d2) (@cx_prod K).

Section Fft.
  Variable K : Fld.
  Notation C := (Cx K).
  Variable W : nat -> C.

  (** [o] is the array of all circular correlations. *)
  Definition circ_array (N : nat) (d1 d2 : list (sample C)) : list C :=
    map (fun m => circ_corr N d1 d2 (Z.of_nat m)) (seq 0 N).

  Lemma circ_corr_shift N m c (d1 d2 : list (sample C)) :
    circ_corr N (map (shift_time c) d1) (map (shift_time c) d2) m = circ_corr N d1 d2 m.
  Proof.
    unfold circ_corr. rewrite pairs_circular_map by (intros; apply delay_shift).
    rewrite Sum_map. reflexivity.
  Qed.
  Lemma circ_array_shift N c (d1 d2 : list (sample C)) :
    circ_array N (map (shift_time c) d1) (map (shift_time c) d2) = circ_array N d1 d2.
  Proof. unfold circ_array. apply map_ext. intros. apply circ_corr_shift. Qed.

  Lemma spectra_filled N (d1 d2 : list (sample C)) x y : N <> 0%nat ->
    is_root N (W N) -> filled N d1 x -> filled N d2 y ->
    correlate_spectra W x y = Ok (circ_array N d1 d2).
  Proof.
    intros HN Hw Hx Hy. pose proof (proj1 Hx) as Lx. pose proof (proj1 Hy) as Ly.
    rewrite correlate_spectra_circ.
    - rewrite Lx. f_equal. unfold circ_array. apply map_ext. intros m.
      apply circ_filled with (N := N); auto.
    - congruence.
    - intros ->. cbn in Lx. lia.
    - rewrite Lx. exact Hw.
  Qed.

  Lemma power_filled N (d : list (sample C)) x : N <> 0%nat ->
    is_root N (W N) -> filled N d x -> power_spectrum W x = Ok (circ_array N d d).
  Proof.
    intros HN Hw Hx. pose proof (proj1 Hx) as Lx. rewrite power_spectrum_circ.
    - rewrite Lx. f_equal. unfold circ_array. apply map_ext. intros m.
      apply circ_filled with (N := N); auto.
    - intros ->. cbn in Lx. lia.
    - rewrite Lx. exact Hw.
  Qed.

  Lemma keep_last_regular A (f : list A) : keep_last (regular f) = regular f.
  Proof. apply keep_last_id. apply regular_distinct. Qed.

  (** ** cross_correlate_fft *)
  Section Cross.
    Variables (B : Type) (zero : B) (complex : bool).
    Variable agg : list C -> list B -> res (list B).
    Let reg (x y : list C) (out : list B) : res (list B) :=
      let* o := correlate_spectra W (pad2 x) (pad2 y) in agg o out.
    Let irr (x y : list C) (t1 t2 : list Z) (len : nat) (out : list B) : res (list B) :=
      let* o := cross_irregular W x y t1 t2 len in agg o out.

    Lemma run_cross_fft_aout f1 f2 t1 t2 n out L :
      valid_cross f1 f2 t1 t2 -> f1 <> [] -> covers (samples f1 t1) (samples f2 t2) L ->
      is_root (L * 2) (W (L * 2)) ->
      run_cross_fft zero complex reg irr f1 f2 t1 t2 n (Some out) =
      agg (circ_array (L * 2) (keep_last (samples f1 t1)) (keep_last (samples f2 t2))) out.
    Proof.
      intros HV Hne HC Hw. destruct (covers_samples HV Hne) as (N & HN & HC' & H0 & HL').
      assert (L = N) by (eapply covers_unique; eauto). subst N. clear HC'.
      destruct HV as [HL HV].
      unfold run_cross_fft, _inspect_cross_arguments. simpl option_map.
      rewrite HL, Nat.eqb_refl. cbn [negb].
      assert (E : exists N, match n with
        | Some n0 => Ok n0
        | None => Ok (if complex then ((length out + 1) / 2)%nat else length out)
        end = Ok N) by (destruct n; eexists; reflexivity).
      destruct E as [N E].
      destruct t1 as [t1|], t2 as [t2|]; try contradiction; cbn [bind samples]; rewrite E; cbn [bind].
      - destruct HV as (H1 & H2 & _).
        assert (N1 : t1 <> []) by (eapply nonnil_len; [exact H1|exact Hne]).
        assert (N2 : t2 <> []) by (eapply nonnil_len; [exact (eq_trans H2 (eq_sym HL))|exact Hne]).
        unfold _shift_cross.
        destruct (zmin_list_ok N1) as [m1 E1], (zmin_list_ok N2) as [m2 E2].
        rewrite E1, E2. cbn [bind]. rewrite full_length_shift by assumption.
        rewrite HL in HN. rewrite HN. cbn [bind _default_out]. rewrite !map_length.
        replace (length f2 =? length t1)%nat with true by lia.
        replace (length f2 =? length t2)%nat with true by lia. cbn [andb].
        destruct (@shifted_fits L t1 t2 m1 m2 E1 E2) as [F1 F2].
        { eapply covers_times; [| |exact HC]; apply snd_combine; lia. }
        unfold irr, cross_irregular.
        destruct (@fill_data_filled K (L * 2) f1 (map (fun t => t - Z.min m1 m2)%Z t1)) as (o1 & -> & G1);
          [lia|rewrite map_length; lia|exact F1|].
        destruct (@fill_data_filled K (L * 2) f2 (map (fun t => t - Z.min m1 m2)%Z t2)) as (o2 & -> & G2);
          [lia|rewrite map_length; lia|exact F2|].
        cbn [bind]. rewrite (@spectra_filled (L * 2) _ _ _ _ ltac:(lia) Hw G1 G2). cbn [bind].
        rewrite !combine_shift, !keep_last_shift, circ_array_shift. reflexivity.
      - cbn [_determine_full_length_cross bind _default_out]. specialize (HL' eq_refl). subst L.
        unfold reg. rewrite !keep_last_regular.
        rewrite (@spectra_filled (length f1 * 2) (regular f1) (regular f2)); auto; [lia|apply pad2_filled|].
        rewrite HL. apply pad2_filled.
    Qed.

    Lemma run_cross_fft_fresh f1 f2 t1 t2 n :
      valid_cross f1 f2 t1 t2 -> f1 <> [] ->
      run_cross_fft zero complex reg irr f1 f2 t1 t2 (Some n) None =
      let* out := _default_out zero None n complex in
      run_cross_fft zero complex reg irr f1 f2 t1 t2 (Some n) (Some out).
    Proof.
      intros HV Hne. destruct (covers_samples HV Hne) as (N & HN & _ & H0 & _). destruct HV as [HL HV].
      unfold run_cross_fft, _inspect_cross_arguments. cbn [option_map].
      rewrite HL, Nat.eqb_refl. cbn [negb].
      destruct t1 as [t1|], t2 as [t2|]; try contradiction; cbn [bind].
      - destruct HV as (H1 & H2 & _).
        assert (N1 : t1 <> []) by (eapply nonnil_len; [exact H1|exact Hne]).
        assert (N2 : t2 <> []) by (eapply nonnil_len; [exact (eq_trans H2 (eq_sym HL))|exact Hne]).
        unfold _shift_cross.
        destruct (zmin_list_ok N1) as [m1 E1], (zmin_list_ok N2) as [m2 E2].
        rewrite E1, E2. cbn [bind]. rewrite full_length_shift by assumption.
        rewrite HL in HN. rewrite HN. cbn [bind].
        destruct (_default_out zero None n complex); reflexivity.
      - cbn [_determine_full_length_cross bind].
        destruct (_default_out zero None n complex); reflexivity.
    Qed.

    Lemma run_cross_fft_default f1 f2 t1 t2 L :
      valid_cross f1 f2 t1 t2 -> f1 <> [] -> covers (samples f1 t1) (samples f2 t2) L ->
      run_cross_fft zero complex reg irr f1 f2 t1 t2 None None =
      run_cross_fft zero complex reg irr f1 f2 t1 t2 (Some L) None.
    Proof.
      intros HV Hne HC. destruct (covers_samples HV Hne) as (N & HN & HC' & H0 & _).
      assert (L = N) by (eapply covers_unique; eauto). subst N.
      unfold run_cross_fft, _inspect_cross_arguments. cbn [option_map].
      destruct t1 as [t1|], t2 as [t2|]; cbn [bind]; try reflexivity; rewrite HN; reflexivity.
    Qed.
  End Cross.

  (** ** auto_correlate_fft *)
  Section Auto.
    Variables (B : Type) (zero : B).
    Variable agg : list C -> list B -> res (list B).
    Let reg (x : list C) (out : list B) : res (list B) :=
      let* o := power_spectrum W (pad2 x) in agg o out.
    Let irr (x : list C) (t : list Z) (len : nat) (out : list B) : res (list B) :=
      let* o := auto_irregular W x t len in agg o out.

    Lemma run_auto_fft_aout f t n out L :
      valid_auto f t -> f <> [] -> covers (samples f t) (samples f t) L ->
      is_root (L * 2) (W (L * 2)) ->
      run_auto_fft zero reg irr f t n (Some out) =
      agg (circ_array (L * 2) (keep_last (samples f t)) (keep_last (samples f t))) out.
    Proof.
      intros HV Hne HC Hw. destruct (@covers_samples_auto C f t HV Hne) as (N & HN & HC' & H0 & HL').
      assert (L = N) by (eapply covers_unique; eauto). subst N. clear HC'.
      unfold run_auto_fft, _inspect_auto_arguments. simpl option_map.
      assert (E : exists N, match n with Some n0 => Ok n0 | None => Ok (length out) end = Ok N)
        by (destruct n; eexists; reflexivity).
      destruct E as [N ->].
      destruct t as [t|]; cbn [bind samples].
      - destruct HV as (H1 & _).
        assert (N1 : t <> []) by (eapply nonnil_len; [exact H1|exact Hne]).
        destruct (zmin_list_ok N1) as [m1 E1].
        rewrite E1. cbn [bind]. rewrite full_length_auto_shift by assumption.
        rewrite HN. cbn [bind _default_out]. rewrite !map_length.
        replace (length f =? length t)%nat with true by lia.
        destruct (@shifted_fits L t t m1 m1 E1 E1) as [F1 _].
        { eapply covers_times; [| |exact HC]; apply snd_combine; lia. }
        rewrite Z.min_id in F1.
        unfold irr, auto_irregular.
        destruct (@fill_data_filled K (L * 2) f (map (fun t => t - m1)%Z t)) as (o1 & -> & G1);
          [lia|rewrite map_length; lia|exact F1|].
        cbn [bind]. rewrite (@power_filled (L * 2) _ _ ltac:(lia) Hw G1). cbn [bind].
        rewrite !combine_shift, !keep_last_shift, circ_array_shift. reflexivity.
      - cbn [_determine_full_length_auto bind _default_out]. specialize (HL' eq_refl). subst L.
        unfold reg. rewrite !keep_last_regular.
        rewrite (@power_filled (length f * 2) (regular f)); auto; [lia|apply pad2_filled].
    Qed.

    Lemma run_auto_fft_fresh f t n :
      valid_auto f t -> f <> [] ->
      run_auto_fft zero reg irr f t (Some n) None =
      run_auto_fft zero reg irr f t (Some n) (Some (repeat zero n)).
    Proof.
      intros HV Hne.
      unfold run_auto_fft, _inspect_auto_arguments. cbn [option_map].
      destruct t as [t|]; cbn [bind]; [|reflexivity].
      destruct (zmin_list t); cbn [bind]; [|reflexivity]. reflexivity.
    Qed.

    Lemma run_auto_fft_default f t L :
      valid_auto f t -> f <> [] -> covers (samples f t) (samples f t) L ->
      run_auto_fft zero reg irr f t None None = run_auto_fft zero reg irr f t (Some L) None.
    Proof.
      intros HV Hne HC. destruct (@covers_samples_auto C f t HV Hne) as (N & HN & HC' & H0 & _).
      assert (L = N) by (eapply covers_unique; eauto). subst N.
      unfold run_auto_fft, _inspect_auto_arguments. cbn [option_map]. rewrite HN. reflexivity.
    Qed.
  End Auto.

  (** ** Adding the transform to the output *)
  Lemma circ_array_length N d1 d2 : length (circ_array N d1 d2) = N.
  Proof. unfold circ_array. rewrite map_length, seq_length. reflexivity. Qed.
  Lemma nth_circ_array N d1 d2 k : (k < N)%nat ->
    nth k (circ_array N d1 d2) (c0 K) = circ_corr N d1 d2 (Z.of_nat k).
  Proof. intros H. unfold circ_array. rewrite nth_map_seq by exact H. reflexivity. Qed.
  Lemma nth_circ_array_neg N d1 d2 k : (1 <= k <= N)%nat ->
    nth (N - k) (circ_array N d1 d2) (c0 K) = circ_corr N d1 d2 (- Z.of_nat k).
  Proof.
    intros H. rewrite nth_circ_array by lia. unfold circ_corr. rewrite pairs_circular_opp by lia. reflexivity.
  Qed.

  Lemma add_folded_too_long (M : CMon) f o (out : list M) : (length o < length out)%nat ->
    @add_folded K M f o out = Raise ValueError.
  Proof. intros H. unfold add_folded. replace (length o <? length out)%nat with true by lia. reflexivity. Qed.
  Lemma add_folded_circ (M : CMon) (f : C -> M) N d1 d2 out : (0 < length out <= N)%nat ->
    add_folded M f (circ_array N d1 d2) out =
    Ok (plus_cells M out (fun k => if (k =? 0)%nat then f (circ_corr N d1 d2 0)
        else madd M (f (circ_corr N d1 d2 (Z.of_nat k))) (f (circ_corr N d1 d2 (- Z.of_nat k))))).
  Proof.
    intros H. unfold add_folded. rewrite circ_array_length.
    replace (N <? length out)%nat with false by lia. replace (length out =? 0)%nat with false by lia.
    cbn [andb]. f_equal. unfold plus_cells. apply map_ext_in. intros k Hk. apply in_seq in Hk.
    rewrite nth_circ_array by lia. destruct (Nat.eqb_spec k 0) as [->|Hk0]; [reflexivity|].
    rewrite nth_circ_array_neg by lia. symmetry. apply madd_assoc.
  Qed.
  Lemma add_signed_too_long (M : CMon) f o (out : list M) : (length o < (length out + 1) / 2)%nat ->
    @add_signed K M f o out = Raise ValueError.
  Proof. intros H. unfold add_signed. replace (length o <? (length out + 1) / 2)%nat with true by lia. reflexivity. Qed.
  Lemma add_signed_circ (M : CMon) (f : C -> M) N d1 d2 out n : length out = (2 * n - 1)%nat -> (0 < n <= N)%nat ->
    add_signed M f (circ_array N d1 d2) out =
    Ok (plus_cells M out (fun i => f (circ_corr N d1 d2 (lag_at n i)))).
  Proof.
    intros HL H. unfold add_signed. rewrite circ_array_length, HL.
    replace ((2 * n - 1 + 1) / 2)%nat with n by lia.
    replace (N <? n)%nat with false by lia. replace (n =? 0)%nat with false by lia.
    cbn [andb]. f_equal. unfold plus_cells. rewrite HL. apply map_ext_in. intros i Hi. apply in_seq in Hi.
    unfold lag_at. destruct (i <? n)%nat eqn:E.
    - rewrite nth_circ_array by lia. reflexivity.
    - replace (2 * n - 1 - i <? n)%nat with true by lia. rewrite nth_circ_array_neg by lia.
      do 3 f_equal. lia.
  Qed.
  Lemma add_plain_too_long (M : CMon) f o (out : list M) : (length o < length out)%nat ->
    @add_plain K M f o out = Raise ValueError.
  Proof. intros H. unfold add_plain. replace (length o <? length out)%nat with true by lia. reflexivity. Qed.
  Lemma add_plain_circ (M : CMon) (f : C -> M) N d1 d2 out : (length out <= N)%nat ->
    add_plain M f (circ_array N d1 d2) out = Ok (plus_cells M out (fun k => f (circ_corr N d1 d2 (Z.of_nat k)))).
  Proof.
    intros H. unfold add_plain. rewrite circ_array_length.
    replace (N <? length out)%nat with false by lia.
    f_equal. unfold plus_cells. apply map_ext_in. intros k Hk. apply in_seq in Hk.
    rewrite nth_circ_array by lia. reflexivity.
  Qed.

  (** ** No wrap-around within the time span *)
  Lemma circ_corr_complex L d1 d2 (m : Z) : covers d1 d2 L -> (Z.abs m <= Z.of_nat L)%Z ->
    circ_corr (L * 2) (keep_last d1) (keep_last d2) m = corr_complex_spec (K := K) (keep_last d1) (keep_last d2) m.
  Proof.
    intros [H _] Hm. unfold circ_corr, corr_complex_spec. rewrite pairs_circular_signed; auto.
    intros [p q] Hp. apply in_prod_iff in Hp. destruct Hp as [Hp Hq]. apply H. apply in_prod_iff.
    split; apply keep_last_In; assumption.
  Qed.

  Theorem cross_correlate_fft_circular f1 f2 t1 t2 n out L :
    valid_cross f1 f2 t1 t2 -> f1 <> [] -> covers (samples f1 t1) (samples f2 t2) L ->
    is_root (L * 2) (W (L * 2)) -> (0 < length out <= L * 2)%nat ->
    cross_correlate_fft W f1 f2 t1 t2 n (Some out) =
    Ok (plus_cells (fmon K) out (fun k =>
      let c := circ_corr (L * 2) (keep_last (samples f1 t1)) (keep_last (samples f2 t2)) in
      if (k =? 0)%nat then cre (c 0%Z) else fadd K (cre (c (Z.of_nat k))) (cre (c (- Z.of_nat k)%Z)))).
  Proof.
    intros HV Hne HC Hw Ho.
    etransitivity; [exact (@run_cross_fft_aout K (f0 K) false (add_folded (fmon K) (@cre K)) f1 f2 t1 t2 n out L HV Hne HC Hw)|].
    apply (@add_folded_circ (fmon K)). exact Ho.
  Qed.

  Theorem cross_correlate_fft_complex_circular f1 f2 t1 t2 n out m L :
    valid_cross f1 f2 t1 t2 -> f1 <> [] -> covers (samples f1 t1) (samples f2 t2) L ->
    is_root (L * 2) (W (L * 2)) -> length out = (2 * m - 1)%nat -> (0 < m <= L * 2)%nat ->
    cross_correlate_fft_complex W f1 f2 t1 t2 n (Some out) =
    Ok (plus_cells (cmon K) out (fun i =>
      circ_corr (L * 2) (keep_last (samples f1 t1)) (keep_last (samples f2 t2)) (lag_at m i))).
  Proof.
    intros HV Hne HC Hw Ho Hm.
    etransitivity; [exact (@run_cross_fft_aout C (c0 K) true (add_signed (cmon K) (fun z => z)) f1 f2 t1 t2 n out L HV Hne HC Hw)|].
    exact (@add_signed_circ (cmon K) (fun z => z) (L * 2) _ _ out m Ho Hm).
  Qed.

  Theorem auto_correlate_fft_circular f t n out L :
    valid_auto f t -> f <> [] -> covers (samples f t) (samples f t) L ->
    is_root (L * 2) (W (L * 2)) -> (length out <= L * 2)%nat ->
    auto_correlate_fft W f t n (Some out) =
    Ok (plus_cells (fmon K) out (fun k =>
      cre (circ_corr (L * 2) (keep_last (samples f t)) (keep_last (samples f t)) (Z.of_nat k)))).
  Proof.
    intros HV Hne HC Hw Ho.
    etransitivity; [exact (@run_auto_fft_aout K (f0 K) (add_plain (fmon K) (@cre K)) f t n out L HV Hne HC Hw)|].
    apply (@add_plain_circ (fmon K)). exact Ho.
  Qed.
  Theorem auto_correlate_fft_complex_circular f t n out L :
    valid_auto f t -> f <> [] -> covers (samples f t) (samples f t) L ->
    is_root (L * 2) (W (L * 2)) -> (length out <= L * 2)%nat ->
    auto_correlate_fft_complex W f t n (Some out) =
    Ok (plus_cells (cmon K) out (fun k =>
      circ_corr (L * 2) (keep_last (samples f t)) (keep_last (samples f t)) (Z.of_nat k))).
  Proof.
    intros HV Hne HC Hw Ho.
    etransitivity; [exact (@run_auto_fft_aout C (c0 K) (add_plain (cmon K) (fun z => z)) f t n out L HV Hne HC Hw)|].
    exact (@add_plain_circ (cmon K) (fun z => z) (L * 2) _ _ out Ho).
  Qed.

  (** Too long outputs *)
  Theorem cross_correlate_fft_too_long f1 f2 t1 t2 n out L :
    valid_cross f1 f2 t1 t2 -> f1 <> [] -> covers (samples f1 t1) (samples f2 t2) L ->
    is_root (L * 2) (W (L * 2)) -> (L * 2 < length out)%nat ->
    cross_correlate_fft W f1 f2 t1 t2 n (Some out) = Raise ValueError.
  Proof.
    intros HV Hne HC Hw Ho.
    etransitivity; [exact (@run_cross_fft_aout K (f0 K) false (add_folded (fmon K) (@cre K)) f1 f2 t1 t2 n out L HV Hne HC Hw)|].
    apply (@add_folded_too_long (fmon K)). rewrite circ_array_length. exact Ho.
  Qed.
  Theorem auto_correlate_fft_too_long f t n out L :
    valid_auto f t -> f <> [] -> covers (samples f t) (samples f t) L ->
    is_root (L * 2) (W (L * 2)) -> (L * 2 < length out)%nat ->
    auto_correlate_fft W f t n (Some out) = Raise ValueError.
  Proof.
    intros HV Hne HC Hw Ho.
    etransitivity; [exact (@run_auto_fft_aout K (f0 K) (add_plain (fmon K) (@cre K)) f t n out L HV Hne HC Hw)|].
    apply (@add_plain_too_long (fmon K)). rewrite circ_array_length. exact Ho.
  Qed.

  (** ** Within the time span: the direct result on the data that survives *)
  Theorem cross_correlate_fft_last f1 f2 t1 t2 n out L :
    valid_cross f1 f2 t1 t2 -> f1 <> [] -> covers (samples f1 t1) (samples f2 t2) L ->
    is_root (L * 2) (W (L * 2)) -> (0 < length out <= L + 1)%nat ->
    cross_correlate_fft W f1 f2 t1 t2 n (Some out) =
    Ok (plus_cells (fmon K) out (corr_spec (keep_last (samples f1 t1)) (keep_last (samples f2 t2)))).
  Proof.
    intros HV Hne HC Hw Ho. destruct (covers_samples HV Hne) as (N & _ & HC' & H0 & _).
    assert (L = N) by (eapply covers_unique; eauto). subst N.
    rewrite (@cross_correlate_fft_circular f1 f2 t1 t2 n out L) by (auto; lia).
    f_equal. apply plus_cells_ext. intros k Hk. cbn zeta. cbn [mcar fmon] in Hk. rewrite fold_corr.
    destruct (Nat.eqb_spec k 0) as [->|Hk0].
    - rewrite circ_corr_complex by (auto; lia). reflexivity.
    - rewrite !circ_corr_complex by (auto; lia). reflexivity.
  Qed.

  Theorem cross_correlate_fft_complex_last f1 f2 t1 t2 n out m L :
    valid_cross f1 f2 t1 t2 -> f1 <> [] -> covers (samples f1 t1) (samples f2 t2) L ->
    is_root (L * 2) (W (L * 2)) -> length out = (2 * m - 1)%nat -> (0 < m <= L + 1)%nat ->
    cross_correlate_fft_complex W f1 f2 t1 t2 n (Some out) =
    Ok (plus_cells (cmon K) out (fun i =>
      corr_complex_spec (keep_last (samples f1 t1)) (keep_last (samples f2 t2)) (lag_at m i))).
  Proof.
    intros HV Hne HC Hw Ho Hm. destruct (covers_samples HV Hne) as (N & _ & HC' & H0 & _).
    assert (L = N) by (eapply covers_unique; eauto). subst N.
    rewrite (@cross_correlate_fft_complex_circular f1 f2 t1 t2 n out m L) by (auto; lia).
    f_equal. apply plus_cells_ext. intros i Hi. cbn [mcar cmon] in Hi. apply circ_corr_complex; [exact HC|].
    unfold lag_at. destruct (i <? m)%nat eqn:E; cbn [m0 mcar cmon] in *; lia.
  Qed.

  Add Field Kf2 : (flaw K).
  Lemma acorr_real_part (d : list (sample C)) k : acorr_spec d k = cre (acorr_complex_spec d k).
  Proof.
    unfold acorr_spec, acorr_complex_spec. rewrite cre_Sum. apply Sum_ext. intros p _.
    unfold re_prod, cx_prod_ordered, cx_prod. destruct (snd (fst p) <=? snd (snd p))%Z; [reflexivity|].
    destruct p as [[[a b] t] [[c d'] t']]. unfold cmul, conj, cre, cim; cbn [fst snd].
    match goal with |- @eq _ ?a ?b => change (@eq K a b) end. ring.
  Qed.

  Theorem auto_correlate_fft_last f t n out L :
    valid_auto f t -> f <> [] -> covers (samples f t) (samples f t) L ->
    is_root (L * 2) (W (L * 2)) -> (length out <= L + 1)%nat ->
    auto_correlate_fft W f t n (Some out) =
      Ok (plus_cells (fmon K) out (acorr_spec (keep_last (samples f t)))) /\
    forall outc, length outc = length out -> auto_correlate_fft_complex W f t n (Some outc) =
      Ok (plus_cells (cmon K) outc (acorr_complex_spec (keep_last (samples f t)))).
  Proof.
    intros HV Hne HC Hw Ho. destruct (@covers_samples_auto C f t HV Hne) as (N & _ & HC' & H0 & _).
    assert (L = N) by (eapply covers_unique; eauto). subst N.
    assert (D := keep_last_distinct (samples f t)).
    assert (E : forall k, (k < length out)%nat ->
      circ_corr (L * 2) (keep_last (samples f t)) (keep_last (samples f t)) (Z.of_nat k) =
      acorr_complex_spec (keep_last (samples f t)) k).
    { intros k Hk. rewrite circ_corr_complex by (auto; lia). apply acorr_complex_cross. exact D. }
    split.
    - rewrite (@auto_correlate_fft_circular f t n out L) by (auto; lia).
      f_equal. apply plus_cells_ext. intros k Hk. cbn [mcar fmon] in Hk. rewrite E by exact Hk.
      symmetry. apply acorr_real_part.
    - intros outc Hl. rewrite (@auto_correlate_fft_complex_circular f t n outc L) by (auto; lia).
      f_equal. apply plus_cells_ext. intros k Hk. apply E. cbn [mcar cmon] in *. lia.
  Qed.

  (** ** Sums *)
  Section Sums.
    Variable G : QGrp.
    Variable toC : G -> C.
    Variable back : C -> G.
    Hypothesis back_0 : back (c0 K) = m0 G.
    Hypothesis back_add : forall a b, back (cadd a b) = madd G (back a) (back b).
    Hypothesis back_toC : forall v, back (conj (toC v)) = v.

    Definition circ_sum {B} (N : nat) (d1 : list (sample G)) (d2 : list (sample B)) (m : Z) : G :=
      Sum G (pairs_circular N m d1 d2) (fun p => fst (fst p)).

    Lemma back_Sum A (l : list A) f : back (Sum (cmon K) l f) = Sum G l (fun x => back (f x)).
    Proof.
      induction l as [|x l IH]; [exact back_0|]. rewrite !Sum_cons. cbn [madd cmon].
      rewrite back_add, IH. reflexivity.
    Qed.

    Lemma ones_times t : ones_at K t = map (map_val (fun _ : unit => c1 K)) (times t).
    Proof. unfold ones_at, times. rewrite map_map. reflexivity. Qed.

    Lemma back_circ N f t t' m :
      back (circ_corr N (keep_last (combine (map toC f) t)) (keep_last (ones_at K t')) m) =
      circ_sum N (keep_last (combine f t)) (keep_last (times t')) m.
    Proof.
      rewrite combine_map_val, ones_times, !keep_last_val. unfold circ_corr, circ_sum.
      rewrite pairs_circular_map by reflexivity. rewrite Sum_map, back_Sum. apply Sum_ext. intros p _.
      unfold cx_prod, map_pair, map_val; cbn [fst snd].
      rewrite <- (back_toC (fst (fst p))) at 2. f_equal.
      destruct (toC (fst (fst p))) as [a b]. unfold cmul, conj, c1, cre, cim; cbn [fst snd]. f_equal; ring.
    Qed.

    Lemma circ_sum_shift {B} N m c (d1 : list (sample G)) (d2 : list (sample B)) :
      circ_sum N (map (shift_time c) d1) (map (shift_time c) d2) m = circ_sum N d1 d2 m.
    Proof. clear back_0 back_add back_toC back toC.
      unfold circ_sum. rewrite pairs_circular_map by (intros; apply delay_shift). rewrite Sum_map. reflexivity.
    Qed.
    Lemma circ_sum_neg {B} N m (d1 : list (sample G)) (d2 : list (sample B)) : N <> 0%nat ->
      circ_sum N (map (@neg_time G) d1) (map (@neg_time B) d2) m = circ_sum N d1 d2 (- m).
    Proof. clear back_0 back_add back_toC back toC. intros H. unfold circ_sum. rewrite pairs_circular_neg by exact H. rewrite Sum_map. reflexivity. Qed.

    (** The values added to cell [k] of the real and of the signed output. *)
    Definition fold_circ {B} N (d1 : list (sample G)) (d2 : list (sample B)) (k : nat) : G :=
      if (k =? 0)%nat then circ_sum N d1 d2 0
      else madd G (circ_sum N d1 d2 (Z.of_nat k)) (circ_sum N d1 d2 (- Z.of_nat k)).

    Lemma fold_circ_shift {B} N k c (d1 : list (sample G)) (d2 : list (sample B)) :
      fold_circ N (map (shift_time c) d1) (map (shift_time c) d2) k = fold_circ N d1 d2 k.
    Proof. clear back_0 back_add back_toC back toC. unfold fold_circ. rewrite !circ_sum_shift. reflexivity. Qed.
    Lemma fold_circ_neg {B} N k (d1 : list (sample G)) (d2 : list (sample B)) : N <> 0%nat ->
      fold_circ N (map (@neg_time G) d1) (map (@neg_time B) d2) k = fold_circ N d1 d2 k.
    Proof. clear back_0 back_add back_toC back toC.
      intros H. unfold fold_circ. rewrite !circ_sum_neg by exact H.
      rewrite Z.opp_involutive. destruct (k =? 0)%nat; [reflexivity|apply madd_comm].
    Qed.

    Lemma cross_sum_kernel f t t' L : L <> 0%nat -> length f = length t -> fits (L * 2) t -> fits (L * 2) t' ->
      is_root (L * 2) (W (L * 2)) ->
      exists y y', _fill_ones t' (repeat (c0 K) (L * 2)) = Ok y /\ _fft W y = Ok y' /\
        (forall out, (0 < length out <= L * 2)%nat -> _cross_sum_fft W G toC back f y' t L out =
           Ok (plus_cells G out (fold_circ (L * 2) (keep_last (combine f t)) (keep_last (times t'))))) /\
        (forall out m, length out = (2 * m - 1)%nat -> (0 < m <= L * 2)%nat ->
           _cross_sum_complex_fft W G toC back f y' t L out =
           Ok (plus_cells G out (fun i => circ_sum (L * 2) (keep_last (combine f t)) (keep_last (times t')) (lag_at m i)))) /\
        (forall out, (L * 2 < length out)%nat -> _cross_sum_fft W G toC back f y' t L out = Raise ValueError).
    Proof.
      intros HL Hft F1 F2 Hw.
      destruct (@fill_ones_filled K (L * 2) t' ltac:(lia) F2) as (y & Ey & Gy).
      destruct (@fill_data_filled K (L * 2) (map toC f) t ltac:(lia) ltac:(rewrite map_length; exact Hft) F1) as (x & Ex & Gx).
      pose proof (@spectra_filled (L * 2) _ _ _ _ ltac:(lia) Hw Gx Gy) as HS.
      assert (y <> []) by (intros ->; destruct Gy as [Gy _]; cbn in Gy; lia).
      unfold correlate_spectra in HS.
      destruct (_fft W x) as [x'|] eqn:Ex'; [|discriminate]. cbn [bind] in HS.
      destruct (_fft W y) as [y'|] eqn:Ey'; [|discriminate]. cbn [bind] in HS.
      assert (HO : sum_spectra W (map toC f) y' t L =
        Ok (circ_array (L * 2) (keep_last (combine (map toC f) t)) (keep_last (ones_at K t')))).
      { unfold sum_spectra. rewrite Ex. cbn [bind]. rewrite Ex'. cbn [bind]. exact HS. }
      exists y, y'. split; [exact Ey|]. split; [exact Ey'|]. split; [|split].
      - intros out Ho. unfold _cross_sum_fft. rewrite HO. cbn [bind]. rewrite add_folded_circ by exact Ho.
        f_equal. apply plus_cells_ext. intros k _. unfold fold_circ. rewrite !back_circ. reflexivity.
      - intros out m Ho Hm. unfold _cross_sum_complex_fft. rewrite HO. cbn [bind].
        rewrite (@add_signed_circ G back (L * 2) _ _ out m Ho Hm).
        f_equal. apply plus_cells_ext. intros k _. apply back_circ.
      - intros out Ho. unfold _cross_sum_fft. rewrite HO. cbn [bind].
        apply add_folded_too_long. rewrite circ_array_length. exact Ho.
    Qed.

    Lemma covers_sum (f : list G) t t' : length t = length f -> f <> [] -> t' <> [] ->
      exists N, _determine_full_length_cross (length f) (Some (t, t')) = Ok N /\
        covers (combine f t) (times t') N /\ (0 < N)%nat.
    Proof. clear back_0 back_add back_toC back toC.
      intros H1 H2 H3. apply covers_full; [apply snd_combine; lia|apply snd_times| |exact H3].
      eapply nonnil_len; [exact H1|exact H2].
    Qed.

    Lemma run_cross_sum_fft_real f t t' n inv out L :
      valid_sum f (Some t) (Some t') -> covers (combine f t) (times t') L ->
      is_root (L * 2) (W (L * 2)) -> (0 < length out <= L * 2)%nat ->
      run_cross_sum_fft W G toC back f (Some t) (Some t') n false inv (Some out) =
      Ok (plus_cells G out (fold_circ (L * 2) (keep_last (combine f t)) (keep_last (times t')))).
    Proof.
      intros (H1 & Hne & Hne') HC Hw Ho.
      destruct (@covers_sum f t t' H1 Hne Hne') as (N & HN & HC' & H0).
      assert (L = N) by (eapply covers_unique; eauto). subst N.
      assert (Nt : t <> []) by (eapply nonnil_len; [exact H1|exact Hne]).
      unfold run_cross_sum_fft, _inspect_cross_arguments. simpl option_map. rewrite Nat.eqb_refl. cbn [negb bind].
      assert (E : exists N, match n with Some n0 => Ok n0 | None => Ok (length out) end = Ok N)
        by (destruct n; eexists; reflexivity).
      destruct E as [N ->]. cbn [bind]. unfold _shift_cross.
      destruct (zmin_list_ok Nt) as [m1 E1], (zmin_list_ok Hne') as [m2 E2].
      rewrite E1, E2. cbn [bind]. rewrite full_length_shift by assumption. rewrite HN. cbn [bind _default_out].
      destruct (@shifted_fits L t t' m1 m2 E1 E2) as [F1 F2].
      { eapply covers_times; [apply snd_combine|apply snd_times|exact HC]; lia. }
      destruct inv.
      - destruct (@cross_sum_kernel f (map Z.opp (map (fun t => t - Z.min m1 m2)%Z t)) (map Z.opp (map (fun t => t - Z.min m1 m2)%Z t')) L)
          as (y & y' & -> & Ey' & HK & _); auto.
        { lia. } { rewrite !map_length; lia. } { apply fits_neg; exact F1. } { apply fits_neg; exact F2. }
        cbn [bind]. rewrite Ey'. cbn [bind]. rewrite !map_length.
        replace (length f =? length t)%nat with true by lia. rewrite HK by exact Ho.
        f_equal. apply plus_cells_ext. intros k _.
        rewrite combine_neg, times_neg, !keep_last_neg, fold_circ_neg by lia.
        rewrite combine_shift, times_shift, !keep_last_shift. apply fold_circ_shift.
      - destruct (@cross_sum_kernel f (map (fun t => t - Z.min m1 m2)%Z t) (map (fun t => t - Z.min m1 m2)%Z t') L)
          as (y & y' & -> & Ey' & HK & _); auto.
        { lia. } { rewrite !map_length; lia. }
        cbn [bind]. rewrite Ey'. cbn [bind]. rewrite !map_length.
        replace (length f =? length t)%nat with true by lia. rewrite HK by exact Ho.
        f_equal. apply plus_cells_ext. intros k _.
        rewrite combine_shift, times_shift, !keep_last_shift. apply fold_circ_shift.
    Qed.

    Lemma run_cross_sum_fft_signed f t t' n inv out m L :
      valid_sum f (Some t) (Some t') -> covers (combine f t) (times t') L ->
      is_root (L * 2) (W (L * 2)) -> length out = (2 * m - 1)%nat -> (0 < m <= L * 2)%nat ->
      run_cross_sum_fft W G toC back f (Some t) (Some t') n true inv (Some out) =
      Ok (plus_cells G out (fun i => circ_sum (L * 2) (keep_last (combine f t)) (keep_last (times t'))
                                       (if inv then - lag_at m i else lag_at m i)%Z)).
    Proof.
      intros (H1 & Hne & Hne') HC Hw Ho Hm.
      destruct (@covers_sum f t t' H1 Hne Hne') as (N & HN & HC' & H0).
      assert (L = N) by (eapply covers_unique; eauto). subst N.
      assert (Nt : t <> []) by (eapply nonnil_len; [exact H1|exact Hne]).
      unfold run_cross_sum_fft, _inspect_cross_arguments. simpl option_map. rewrite Nat.eqb_refl. cbn [negb bind].
      assert (E : exists N, match n with Some n0 => Ok n0 | None => Ok ((length out + 1) / 2)%nat end = Ok N)
        by (destruct n; eexists; reflexivity).
      destruct E as [N ->]. cbn [bind]. unfold _shift_cross.
      destruct (zmin_list_ok Nt) as [m1 E1], (zmin_list_ok Hne') as [m2 E2].
      rewrite E1, E2. cbn [bind]. rewrite full_length_shift by assumption. rewrite HN. cbn [bind _default_out].
      destruct (@shifted_fits L t t' m1 m2 E1 E2) as [F1 F2].
      { eapply covers_times; [apply snd_combine|apply snd_times|exact HC]; lia. }
      destruct inv.
      - destruct (@cross_sum_kernel f (map Z.opp (map (fun t => t - Z.min m1 m2)%Z t)) (map Z.opp (map (fun t => t - Z.min m1 m2)%Z t')) L)
          as (y & y' & -> & Ey' & _ & HK & _); auto.
        { lia. } { rewrite !map_length; lia. } { apply fits_neg; exact F1. } { apply fits_neg; exact F2. }
        cbn [bind]. rewrite Ey'. cbn [bind]. rewrite !map_length.
        replace (length f =? length t)%nat with true by lia. rewrite (HK out m Ho Hm).
        f_equal. apply plus_cells_ext. intros k _.
        rewrite combine_neg, times_neg, !keep_last_neg, circ_sum_neg by lia.
        rewrite combine_shift, times_shift, !keep_last_shift. apply circ_sum_shift.
      - destruct (@cross_sum_kernel f (map (fun t => t - Z.min m1 m2)%Z t) (map (fun t => t - Z.min m1 m2)%Z t') L)
          as (y & y' & -> & Ey' & _ & HK & _); auto.
        { lia. } { rewrite !map_length; lia. }
        cbn [bind]. rewrite Ey'. cbn [bind]. rewrite !map_length.
        replace (length f =? length t)%nat with true by lia. rewrite (HK out m Ho Hm).
        f_equal. apply plus_cells_ext. intros k _.
        rewrite combine_shift, times_shift, !keep_last_shift. apply circ_sum_shift.
    Qed.

    Lemma run_auto_sum_fft_aout f t n out L :
      valid_auto f (Some t) -> covers (combine f t) (combine f t) L ->
      is_root (L * 2) (W (L * 2)) -> (0 < length out <= L * 2)%nat ->
      run_auto_sum_fft W G toC back f (Some t) n (Some out) =
      Ok (plus_cells G out (fun k =>
        let v := fold_circ (L * 2) (keep_last (combine f t)) (keep_last (times t)) k in
        if (k =? 0)%nat then v else ahalf G v)).
    Proof.
      intros (H1 & Hne) HC Hw Ho.
      destruct (@covers_samples_auto G f (Some t)) as (N & HN & HC' & H0 & _); [split; auto|exact Hne|].
      assert (L = N) by (eapply covers_unique; eauto). subst N.
      assert (Nt : t <> []) by (eapply nonnil_len; [exact H1|exact Hne]).
      unfold run_auto_sum_fft, _inspect_auto_arguments. simpl option_map. cbn [bind].
      assert (E : exists N, match n with Some n0 => Ok n0 | None => Ok (length out) end = Ok N)
        by (destruct n; eexists; reflexivity).
      destruct E as [N ->]. cbn [bind].
      destruct (zmin_list_ok Nt) as [m1 E1].
      rewrite E1. cbn [bind]. rewrite full_length_auto_shift by assumption. rewrite HN. cbn [bind _default_out].
      destruct (@shifted_fits L t t m1 m1 E1 E1) as [F1 _].
      { eapply covers_times; [apply snd_combine|apply snd_combine|exact HC]; lia. }
      rewrite Z.min_id in F1.
      destruct (@cross_sum_kernel f (map (fun t => t - m1)%Z t) (map (fun t => t - m1)%Z t) L)
        as (y & y' & -> & Ey' & HK & _); auto.
      { lia. } { rewrite !map_length; lia. }
      cbn [bind]. rewrite Ey'. cbn [bind]. rewrite !map_length.
      replace (length f =? length t)%nat with true by lia.
      rewrite HK by (rewrite repeat_length; exact Ho). cbn [bind].
      rewrite plus_cells_zero, halve_tail_map, add_arrays_zip, zip_add_map. f_equal.
      apply plus_cells_ext. intros k _. cbn zeta.
      rewrite combine_shift, times_shift, !keep_last_shift, fold_circ_shift. reflexivity.
    Qed.

    (** *** Within the time span *)
    Lemma keep_last_delays {A B} L (d1 : list (sample A)) (d2 : list (sample B)) : covers d1 d2 L ->
      forall p, In p (list_prod (keep_last d1) (keep_last d2)) -> (Z.abs (delay p) < Z.of_nat L)%Z.
    Proof. clear back_0 back_add back_toC back toC.
      intros [H _] [p q] Hp. apply in_prod_iff in Hp. destruct Hp as [Hp Hq]. apply H. apply in_prod_iff.
      split; apply keep_last_In; assumption.
    Qed.
    Lemma circ_sum_signed {B} L (d1 : list (sample G)) (d2 : list (sample B)) m : covers d1 d2 L ->
      (Z.abs m <= Z.of_nat L)%Z ->
      circ_sum (L * 2) (keep_last d1) (keep_last d2) m = sum_signed_spec G (keep_last d1) (keep_last d2) m.
    Proof. clear back_0 back_add back_toC back toC.
      intros H Hm. unfold circ_sum, sum_signed_spec. rewrite pairs_circular_signed; auto.
      apply keep_last_delays. exact H.
    Qed.
    Lemma fold_circ_spec {B} L (d1 : list (sample G)) (d2 : list (sample B)) k : covers d1 d2 L ->
      (k <= L)%nat ->
      fold_circ (L * 2) (keep_last d1) (keep_last d2) k = sum_spec G (keep_last d1) (keep_last d2) k.
    Proof. clear back_0 back_add back_toC back toC.
      intros H Hk. unfold fold_circ, sum_spec. destruct (Nat.eqb_spec k 0) as [->|Hk0].
      - rewrite circ_sum_signed by (auto; lia). unfold sum_signed_spec. rewrite pairs_at_0. reflexivity.
      - rewrite !circ_sum_signed by (auto; lia). unfold sum_signed_spec. rewrite pairs_at_signed by lia. reflexivity.
    Qed.
  End Sums.
End Fft.
