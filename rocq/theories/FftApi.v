(** The FFT-based functions return what the direct functions return. *)
From Verif Require Import Base Kernels PairSpec KernelProofs PairLemmas RegularProofs CoreModel CoreProofs CoreProofs2
  CoreProofs3 FftModel FftProofs FftProofs2 FftProofs3.
From Coq Require Import ZifyBool ZifyNat.
Ltac Zify.zify_post_hook ::= Z.div_mod_to_equations.
Set Implicit Arguments.

Section Api.
  Variable K : Fld.
  Notation C := (Cx K).
  Variable W : nat -> C.

  Section CrossArgs.
    Variables f1 f2 : list C.
    Variables t1 t2 : option (list Z).
    Variable L : nat.
    Hypothesis HV : valid_cross f1 f2 t1 t2.
    Hypothesis Hne : f1 <> [].
    Hypothesis D1 : distinct (samples f1 t1).
    Hypothesis D2 : distinct (samples f2 t2).
    Hypothesis HC : covers (samples f1 t1) (samples f2 t2) L.
    Hypothesis Hw : is_root (L * 2) (W (L * 2)).

    Lemma span_regular : t1 = None -> L = length f1.
    Proof.
      intros E. destruct (covers_samples HV Hne) as (N & _ & HC' & H0 & HL).
      rewrite (covers_unique HC HC' H0). auto.
    Qed.
    Lemma span_pos : (0 < L)%nat.
    Proof. destruct (covers_samples HV Hne) as (N & _ & HC' & H0 & HL). rewrite (covers_unique HC HC' H0). auto. Qed.
    Lemma span_full : _determine_full_length_cross (length f1)
      match t1, t2 with Some t1, Some t2 => Some (t1, t2) | _, _ => None end = Ok L.
    Proof. destruct (covers_samples HV Hne) as (N & HN & HC' & H0 & HL). rewrite (covers_unique HC HC' H0). exact HN. Qed.

    Theorem cross_correlate_fft_direct n aligned aout :
      (0 < output_length n aout L <= L + 1)%nat ->
      cross_correlate_fft W f1 f2 t1 t2 n aout = cross_correlate f1 f2 t1 t2 n aligned aout.
    Proof.
      pose proof span_regular as HR.
      assert (Main : forall n out, (0 < length out <= L + 1)%nat ->
        cross_correlate_fft W f1 f2 t1 t2 n (Some out) = cross_correlate f1 f2 t1 t2 n aligned (Some out)).
      { intros n' out Ho. rewrite (@cross_correlate_fft_last K W f1 f2 t1 t2 n' out L) by auto.
        rewrite !keep_last_id by assumption. symmetry. apply cross_correlate_aout; [exact HV|].
        intros E _. rewrite <- (HR E). lia. }
      assert (Fresh : forall n, (0 < n <= L + 1)%nat ->
        cross_correlate_fft W f1 f2 t1 t2 (Some n) None = cross_correlate f1 f2 t1 t2 (Some n) aligned None).
      { intros m Hm.
        etransitivity; [exact (@run_cross_fft_fresh K W K (f0 K) false (add_folded (fmon K) (@cre K)) f1 f2 t1 t2 m HV Hne)|].
        etransitivity; [|symmetry; exact (@run_cross_fresh C (fmon K) false (@_cross_corr_regular K) (@_cross_corr K) f1 f2 t1 t2 m aligned)].
        cbn [_default_out bind m0 fmon]. apply Main. rewrite repeat_length. exact Hm. }
      intros Ho. destruct aout as [out|]; [apply Main; exact Ho|]. destruct n as [n|]; cbn [output_length] in Ho.
      - apply Fresh. exact Ho.
      - etransitivity; [exact (@run_cross_fft_default K W K (f0 K) false (add_folded (fmon K) (@cre K)) f1 f2 t1 t2 L HV Hne HC)|].
        etransitivity; [|symmetry; apply (@run_cross_default C (fmon K)); exact span_full].
        apply Fresh. exact Ho.
    Qed.

    Theorem cross_correlate_fft_complex_direct n aligned aout m :
      output_length n aout L = match aout with Some _ => (2 * m - 1)%nat | None => m end ->
      (0 < m <= L + 1)%nat ->
      cross_correlate_fft_complex W f1 f2 t1 t2 n aout = cross_correlate_complex f1 f2 t1 t2 n aligned aout.
    Proof.
      pose proof span_regular as HR.
      assert (Main : forall n out m, length out = (2 * m - 1)%nat -> (0 < m <= L + 1)%nat ->
        cross_correlate_fft_complex W f1 f2 t1 t2 n (Some out) = cross_correlate_complex f1 f2 t1 t2 n aligned (Some out)).
      { intros n' out m' Ho Hm. rewrite (@cross_correlate_fft_complex_last K W f1 f2 t1 t2 n' out m' L) by auto.
        rewrite !keep_last_id by assumption. symmetry. apply cross_correlate_complex_aout; [exact HV|exact Ho|lia|].
        intros E _. rewrite <- (HR E). lia. }
      assert (Fresh : forall n, (0 < n <= L + 1)%nat ->
        cross_correlate_fft_complex W f1 f2 t1 t2 (Some n) None = cross_correlate_complex f1 f2 t1 t2 (Some n) aligned None).
      { intros k Hm.
        etransitivity; [exact (@run_cross_fft_fresh K W C (c0 K) true (add_signed (cmon K) (fun z => z)) f1 f2 t1 t2 k HV Hne)|].
        etransitivity; [|symmetry; exact (@run_cross_fresh C (cmon K) true (@_cross_corr_complex_regular K) (@_cross_corr_complex K) f1 f2 t1 t2 k aligned)].
        cbn [_default_out bind m0 cmon]. replace (k =? 0)%nat with false by lia. cbn [bind].
        apply Main with (m := k); [|exact Hm]. apply repeat_length. }
      intros Ho Hm. destruct aout as [out|]; [eapply Main; eauto|]. destruct n as [n|]; cbn [output_length] in Ho; subst m.
      - apply Fresh. exact Hm.
      - etransitivity; [exact (@run_cross_fft_default K W C (c0 K) true (add_signed (cmon K) (fun z => z)) f1 f2 t1 t2 L HV Hne HC)|].
        etransitivity; [|symmetry; apply (@run_cross_default C (cmon K)); exact span_full].
        apply Fresh. exact Hm.
    Qed.
  End CrossArgs.

  Section AutoArgs.
    Variable f : list C.
    Variable t : option (list Z).
    Variable L : nat.
    Hypothesis HV : valid_auto f t.
    Hypothesis Hne : f <> [].
    Hypothesis D : distinct (samples f t).
    Hypothesis HC : covers (samples f t) (samples f t) L.
    Hypothesis Hw : is_root (L * 2) (W (L * 2)).

    Lemma span_auto : _determine_full_length_auto (length f) t = Ok L /\ (0 < L)%nat /\ (t = None -> L = length f).
    Proof.
      destruct (@covers_samples_auto C f t HV Hne) as (N & HN & HC' & H0 & HL).
      rewrite (covers_unique HC HC' H0). auto.
    Qed.

    Theorem auto_correlate_fft_direct n aligned aout :
      (output_length n aout L <= L + 1)%nat ->
      auto_correlate_fft W f t n aout = auto_correlate f t n aligned aout.
    Proof.
      destruct span_auto as (HF & H0 & HR).
      assert (Main : forall n out, (length out <= L + 1)%nat ->
        auto_correlate_fft W f t n (Some out) = auto_correlate f t n aligned (Some out)).
      { intros n' out Ho. rewrite (proj1 (@auto_correlate_fft_last K W f t n' out L HV Hne HC Hw Ho)).
        rewrite !keep_last_id by assumption. symmetry. apply auto_correlate_aout; [exact HV|].
        intros E _. rewrite <- (HR E). lia. }
      assert (Fresh : forall n, (n <= L + 1)%nat ->
        auto_correlate_fft W f t (Some n) None = auto_correlate f t (Some n) aligned None).
      { intros m Hm.
        etransitivity; [exact (@run_auto_fft_fresh K W K (f0 K) (add_plain (fmon K) (@cre K)) f t m HV Hne)|].
        etransitivity; [|symmetry; exact (@run_auto_fresh C (fmon K) (@_auto_corr_regular K) (@_auto_corr K) f t m aligned)].
        cbn [m0 fmon]. apply Main. rewrite repeat_length. exact Hm. }
      intros Ho. destruct aout as [out|]; [apply Main; exact Ho|]. destruct n as [n|]; cbn [output_length] in Ho.
      - apply Fresh. exact Ho.
      - etransitivity; [exact (@run_auto_fft_default K W K (f0 K) (add_plain (fmon K) (@cre K)) f t L HV Hne HC)|].
        etransitivity; [|symmetry; apply (@run_auto_default C (fmon K)); exact HF].
        apply Fresh. exact Ho.
    Qed.

    Theorem auto_correlate_fft_complex_direct n aligned aout :
      (output_length n aout L <= L + 1)%nat ->
      auto_correlate_fft_complex W f t n aout = auto_correlate_complex f t n aligned aout.
    Proof.
      destruct span_auto as (HF & H0 & HR).
      assert (Main : forall n out, (length out <= L + 1)%nat ->
        auto_correlate_fft_complex W f t n (Some out) = auto_correlate_complex f t n aligned (Some out)).
      { intros n' out Ho.
        rewrite (proj2 (@auto_correlate_fft_last K W f t n' (repeat (f0 K) (length out)) L HV Hne HC Hw ltac:(rewrite repeat_length; exact Ho)) out)
          by (rewrite repeat_length; reflexivity).
        rewrite !keep_last_id by assumption. symmetry. apply auto_correlate_complex_aout; [exact HV|].
        intros E _. rewrite <- (HR E). lia. }
      assert (Fresh : forall n, (n <= L + 1)%nat ->
        auto_correlate_fft_complex W f t (Some n) None = auto_correlate_complex f t (Some n) aligned None).
      { intros m Hm.
        etransitivity; [exact (@run_auto_fft_fresh K W C (c0 K) (add_plain (cmon K) (fun z => z)) f t m HV Hne)|].
        etransitivity; [|symmetry; exact (@run_auto_fresh C (cmon K) (@_auto_corr_complex_regular K) (@_auto_corr_complex K) f t m aligned)].
        cbn [m0 cmon]. apply Main. rewrite repeat_length. exact Hm. }
      intros Ho. destruct aout as [out|]; [apply Main; exact Ho|]. destruct n as [n|]; cbn [output_length] in Ho.
      - apply Fresh. exact Ho.
      - etransitivity; [exact (@run_auto_fft_default K W C (c0 K) (add_plain (cmon K) (fun z => z)) f t L HV Hne HC)|].
        etransitivity; [|symmetry; apply (@run_auto_default C (cmon K)); exact HF].
        apply Fresh. exact Ho.
    Qed.
  End AutoArgs.

  (** ** Sums *)
  Section SumArgs.
    Variable G : QGrp.
    Variable toC : G -> C.
    Variable back : C -> G.
    Hypothesis back_0 : back (c0 K) = m0 G.
    Hypothesis back_add : forall a b, back (cadd a b) = madd G (back a) (back b).
    Hypothesis back_toC : forall v, back (conj (toC v)) = v.
    Let csf := run_cross_sum_fft W G toC back.
    Let asf := run_auto_sum_fft W G toC back.

    Variable f : list G.
    Variables t t' : list Z.
    Variable L : nat.
    Hypothesis HV : valid_sum f (Some t) (Some t').
    Hypothesis D1 : NoDup t.
    Hypothesis D2 : NoDup t'.
    Hypothesis HC : covers (combine f t) (times t') L.
    Hypothesis Hw : is_root (L * 2) (W (L * 2)).

    Lemma span_sum : _determine_full_length_cross (length f) (Some (t, t')) = Ok L /\ (0 < L)%nat.
    Proof.
      destruct HV as (H1 & H2 & H3). destruct (@covers_sum G f t t' H1 H2 H3) as (N & HN & HC' & H0).
      rewrite (covers_unique HC HC' H0). auto.
    Qed.

    Lemma sum_data_distinct : distinct (combine f t) /\ distinct (times t').
    Proof.
      destruct HV as (H1 & _). split; [apply combine_distinct; auto|].
      unfold distinct. rewrite snd_times. exact D2.
    Qed.

    Theorem cross_sum_fft_aout n inv out : (0 < length out <= L + 1)%nat ->
      csf f (Some t) (Some t') n false inv (Some out) = cross_sum G f (Some t) (Some t') n false inv (Some out).
    Proof.
      intros Ho. destruct span_sum as [_ H0]. destruct sum_data_distinct as [E1 E2].
      unfold csf. rewrite (@run_cross_sum_fft_real K W G toC back back_0 back_add back_toC f t t' n inv out L) by (auto; lia).
      rewrite (@cross_sum_real_aout G f (Some t) (Some t') n inv out HV) by discriminate.
      f_equal. apply plus_cells_ext. intros k Hk. rewrite (@fold_circ_spec K) by (auto; lia).
      rewrite !keep_last_id by assumption. reflexivity.
    Qed.
    Theorem cross_sum_fft_complex_aout n inv out m : length out = (2 * m - 1)%nat -> (0 < m <= L + 1)%nat ->
      csf f (Some t) (Some t') n true inv (Some out) = cross_sum G f (Some t) (Some t') n true inv (Some out).
    Proof.
      intros Ho Hm. destruct span_sum as [_ H0]. destruct sum_data_distinct as [E1 E2].
      unfold csf. rewrite (@run_cross_sum_fft_signed K W G toC back back_0 back_add back_toC f t t' n inv out m L) by (auto; lia).
      rewrite (@cross_sum_complex_aout G f (Some t) (Some t') n inv out m HV Ho ltac:(lia)) by discriminate.
      f_equal. apply plus_cells_ext. intros k Hk. rewrite circ_sum_signed.
      - rewrite !keep_last_id by assumption. reflexivity.
      - exact HC.
      - unfold lag_at. destruct inv, (k <? m)%nat eqn:E; lia.
    Qed.

    Theorem cross_sum_fft_direct n (complex inv : bool) aout m :
      output_length n aout L = match aout with Some _ => if complex then (2 * m - 1)%nat else m | None => m end ->
      (0 < m <= L + 1)%nat ->
      csf f (Some t) (Some t') n complex inv aout = cross_sum G f (Some t) (Some t') n complex inv aout.
    Proof.
      destruct span_sum as [HF H0].
      assert (Main : forall n out m, length out = (if complex then 2 * m - 1 else m)%nat -> (0 < m <= L + 1)%nat ->
        csf f (Some t) (Some t') n complex inv (Some out) = cross_sum G f (Some t) (Some t') n complex inv (Some out)).
      { intros n' out m' Ho Hm. destruct complex.
        - apply cross_sum_fft_complex_aout with (m := m'); auto.
        - apply cross_sum_fft_aout. lia. }
      assert (Fresh : forall n, (0 < n <= L + 1)%nat ->
        csf f (Some t) (Some t') (Some n) complex inv None = cross_sum G f (Some t) (Some t') (Some n) complex inv None).
      { intros k Hk. rewrite cross_sum_fresh_arr by (intros; lia).
        rewrite <- (Main (Some k) (repeat (m0 G) (if complex then 2 * k - 1 else k)%nat) k (repeat_length _ _) Hk).
        unfold csf, run_cross_sum_fft, _inspect_cross_arguments. cbn [option_map]. rewrite Nat.eqb_refl. cbn [negb bind].
        destruct (_shift_cross t t') as [[s s']|]; cbn [bind]; [|reflexivity].
        destruct (_determine_full_length_cross (length f) (Some (s, s'))); cbn [bind]; [|reflexivity].
        replace (_default_out (m0 G) None k complex) with
          (Ok (repeat (m0 G) (if complex then 2 * k - 1 else k)%nat)).
        - reflexivity.
        - unfold _default_out. destruct complex; [|reflexivity]. replace (k =? 0)%nat with false by lia. reflexivity. }
      intros Ho Hm. destruct aout as [out|]; [apply Main with (m := m); auto|]. destruct n as [n|]; cbn [output_length] in Ho; subst m.
      - apply Fresh. exact Hm.
      - transitivity (csf f (Some t) (Some t') (Some L) complex inv None).
        + unfold csf, run_cross_sum_fft, _inspect_cross_arguments. cbn [option_map bind]. rewrite HF. reflexivity.
        + rewrite Fresh by exact Hm. unfold cross_sum, _inspect_cross_arguments. cbn [option_map bind]. rewrite HF. reflexivity.
    Qed.
  End SumArgs.

  Section AutoSumArgs.
    Variable G : QGrp.
    Variable toC : G -> C.
    Variable back : C -> G.
    Hypothesis back_0 : back (c0 K) = m0 G.
    Hypothesis back_add : forall a b, back (cadd a b) = madd G (back a) (back b).
    Hypothesis back_toC : forall v, back (conj (toC v)) = v.
    Let asf := run_auto_sum_fft W G toC back.
    Variable f : list G.
    Variable t : list Z.
    Variable L : nat.
    Hypothesis HV : valid_auto f (Some t).
    Hypothesis D : NoDup t.
    Hypothesis HC : covers (combine f t) (combine f t) L.
    Hypothesis Hw : is_root (L * 2) (W (L * 2)).

    Lemma covers_self_times : covers (combine f t) (times t) L.
    Proof.
      destruct HV as (H1 & _). destruct HC as [A1 (p & Hp & Ep)]. split.
      - intros [s s'] Hs. apply in_prod_iff in Hs. destruct Hs as [Hs Hs'].
        assert (I : In (snd s') (map snd (combine f t))).
        { rewrite snd_combine by lia. rewrite <- (snd_times t). apply in_map. exact Hs'. }
        apply in_map_iff in I. destruct I as (r & Er & Hr).
        specialize (A1 (s, r)). unfold delay in *; cbn [fst snd] in *. rewrite <- Er. apply A1.
        apply in_prod_iff. auto.
      - destruct p as [s r]. apply in_prod_iff in Hp. destruct Hp as [Hs Hr].
        exists (s, (tt, snd r)). split; [|exact Ep]. apply in_prod_iff. split; [exact Hs|].
        unfold times. apply in_map. apply (in_map snd) in Hr. rewrite snd_combine in Hr by lia. exact Hr.
    Qed.

    Theorem auto_sum_fft_direct n aout :
      (0 < output_length n aout L <= L + 1)%nat ->
      asf f (Some t) n aout = auto_sum G f (Some t) n aout.
    Proof.
      destruct HV as (H1 & Hne).
      destruct (@covers_samples_auto G f (Some t) HV Hne) as (N & HF & HC' & H0 & _).
      pose proof (covers_unique HC HC' H0) as EN. subst N. clear HC'.
      assert (Dd : distinct (combine f t)) by (apply combine_distinct; auto).
      assert (Dt : distinct (times t)) by (unfold distinct; rewrite snd_times; exact D).
      assert (Main : forall n out, (0 < length out <= L + 1)%nat ->
        asf f (Some t) n (Some out) = auto_sum G f (Some t) n (Some out)).
      { intros n' out Ho. unfold asf.
        rewrite (@run_auto_sum_fft_aout K W G toC back back_0 back_add back_toC f t n' out L HV HC Hw) by lia.
        rewrite (@auto_sum_aout G f (Some t) n' out HV) by discriminate.
        f_equal. apply plus_cells_ext. intros k Hk. cbn zeta.
        rewrite (@fold_circ_spec K) by first [exact W|exact covers_self_times|lia].
        rewrite !keep_last_id by assumption. cbn [samples]. rewrite sum_times_self by lia.
        unfold auto_sum_value. destruct (Nat.eqb_spec k 0) as [->|]; [reflexivity|]. apply half_sum; lia. }
      assert (Fresh : forall n, (0 < n <= L + 1)%nat ->
        asf f (Some t) (Some n) None = auto_sum G f (Some t) (Some n) None).
      { intros m Hm. transitivity (asf f (Some t) (Some m) (Some (repeat (m0 G) m))).
        - unfold asf, run_auto_sum_fft, _inspect_auto_arguments. cbn [bind option_map].
          destruct (zmin_list t); cbn [bind]; [|reflexivity]. reflexivity.
        - rewrite Main by (rewrite repeat_length; exact Hm).
          unfold auto_sum, _inspect_auto_arguments. cbn [bind option_map].
          destruct (zmin_list t); cbn [bind]; [|reflexivity]. reflexivity. }
      intros Ho. destruct aout as [out|]; [apply Main; exact Ho|]. destruct n as [n|]; cbn [output_length] in Ho.
      - apply Fresh. exact Ho.
      - transitivity (asf f (Some t) (Some L) None).
        + unfold asf, run_auto_sum_fft, _inspect_auto_arguments. cbn [option_map]. rewrite HF. reflexivity.
        + rewrite Fresh by exact Ho. unfold auto_sum, _inspect_auto_arguments. cbn [option_map]. rewrite HF. reflexivity.
    Qed.
  End AutoSumArgs.
End Api.
