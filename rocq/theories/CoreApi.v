(** Final forms of the lemmas about the API of core.py, as used in Prop_Core.v. *)
From Verif Require Import Base Kernels PairSpec KernelProofs PairLemmas RegularProofs SumProofs CoreModel
  CoreProofs CoreProofs2 CoreProofs3 VecModel VecProofs.
From Coq Require Import ZifyBool ZifyNat.
Ltac Zify.zify_post_hook ::= Z.div_mod_to_equations.
Set Implicit Arguments.

(** ** Lengths are preserved by the regular kernels *)
Lemma for_range_res_inv S (P : S -> Prop) a b body (s s' : S) :
  P s -> (forall i s s', P s -> body i s = Ok s' -> P s') ->
  for_range_res a b body s = Ok s' -> P s'.
Proof.
  intros H0 Hb. unfold for_range_res.
  assert (HR : forall l r, match r with Ok x => P x | Raise _ => True end ->
     match fold_left (fun acc i => let* s := acc in body i s) l r with Ok x => P x | Raise _ => True end).
  { induction l as [|i l IH]; intros r Hr; simpl; [exact Hr|]. apply IH.
    destruct r as [x|]; simpl; [|exact I]. destruct (body i x) eqn:E; [|exact I]. eapply Hb; eauto. }
  intros H. specialize (HR (seq a (b - a)) (Ok s) H0). rewrite H in HR. exact HR.
Qed.

Lemma at_cell_length A (d : A) (o o' : list A) i f : at_cell d o i f = Ok o' -> length o' = length o.
Proof.
  unfold at_cell. destruct (f _) as [v|]; [|discriminate]. cbn [bind]. intros [= <-]. apply upd_length.
Qed.

Section Keeps.
  Variable K : Fld.
  Ltac run H o :=
    apply (for_range_res_inv (fun s => length s = length o)) in H; [exact H|reflexivity|];
    let i := fresh "i" in let s := fresh "s" in let s' := fresh "s'" in let Hs := fresh "Hs" in let E := fresh "E" in
    intros i s s' Hs E.
  Lemma keeps_cross_corr : keeps_length2 (@_cross_corr_regular K).
  Proof.
    intros x y o o' H. unfold _cross_corr_regular in H. run H o.
    destruct (at_cell _ s i _) as [s1|] eqn:E1; [|discriminate]. cbn [bind] in E.
    apply at_cell_length in E1. destruct (0 <? i)%nat; [apply at_cell_length in E|injection E as <-]; cbn [mcar fmon] in *; congruence.
  Qed.
  Lemma keeps_cross_diff : keeps_length2 (@_cross_diff_regular K).
  Proof.
    intros x y o o' H. unfold _cross_diff_regular in H. run H o.
    destruct (at_cell _ s i _) as [s1|] eqn:E1; [|discriminate]. cbn [bind] in E.
    apply at_cell_length in E1. destruct (0 <? i)%nat; [apply at_cell_length in E|injection E as <-]; cbn [mcar fmon] in *; congruence.
  Qed.
  Lemma keeps_cross_corr_complex : keeps_length2 (@_cross_corr_complex_regular K).
  Proof.
    intros x y o o' H. unfold _cross_corr_complex_regular in H. run H o.
    destruct (at_cell _ s i _) as [s1|] eqn:E1; [|discriminate]. cbn [bind] in E.
    apply at_cell_length in E1. destruct (0 <? i)%nat; [apply at_cell_length in E|injection E as <-]; cbn [mcar cmon] in *; congruence.
  Qed.
  Lemma keeps_auto_corr : keeps_length1 (@_auto_corr_regular K).
  Proof.
    intros x o o' H. unfold _auto_corr_regular in H. run H o.
    apply at_cell_length in E; cbn [mcar fmon] in *; congruence.
  Qed.
  Lemma keeps_auto_corr_complex : keeps_length1 (@_auto_corr_complex_regular K).
  Proof.
    intros x o o' H. unfold _auto_corr_complex_regular in H. run H o.
    apply at_cell_length in E; cbn [mcar cmon] in *; congruence.
  Qed.
  Lemma keeps_auto_diff : keeps_length1 (@_auto_diff_regular K).
  Proof.
    intros x o o' H. unfold _auto_diff_regular in H. run H o.
    apply at_cell_length in E; cbn [mcar fmon] in *; congruence.
  Qed.
End Keeps.

(* ------------------------------------------------------------------ *)
(** * Reading results *)

Lemma Ok_inj A (a b : A) : Ok a = Ok b -> a = b.
Proof. congruence. Qed.

Lemma lag_at_low n k : (k < n)%nat -> lag_at n k = Z.of_nat k.
Proof. intros H. unfold lag_at. replace (k <? n)%nat with true by lia. reflexivity. Qed.
Lemma lag_at_high n k : (1 <= k < n)%nat -> lag_at n (2 * n - 1 - k) = (- Z.of_nat k)%Z.
Proof. intros H. unfold lag_at. replace (2 * n - 1 - k <? n)%nat with false by lia. lia. Qed.

Section Api.
  Variable K : Fld.
  Add Field Kfield : (flaw K).
  Notation C := (Cx K).

  Lemma cross_correlate_invalid (f1 f2 : list C) t1 t2 n aligned aout :
    ~ valid_cross f1 f2 t1 t2 ->
    cross_correlate f1 f2 t1 t2 n aligned aout = Raise ValueError /\
    (forall aoutc, cross_correlate_complex f1 f2 t1 t2 n aligned aoutc = Raise ValueError) /\
    cross_difference f1 f2 t1 t2 n aligned aout = Raise ValueError.
  Proof.
    intros H. split; [|split; [intros aoutc|]].
    - exact (@run_cross_invalid C (fmon K) false _ _ f1 f2 t1 t2 n aligned aout H).
    - exact (@run_cross_invalid C (cmon K) true _ _ f1 f2 t1 t2 n aligned aoutc H).
    - exact (@run_cross_invalid C (fmon K) false _ _ f1 f2 t1 t2 n aligned aout H).
  Qed.
  Lemma auto_correlate_invalid (f : list C) t n aligned aout :
    ~ valid_auto f t ->
    auto_correlate f t n aligned aout = Raise ValueError /\
    (forall aoutc, auto_correlate_complex f t n aligned aoutc = Raise ValueError) /\
    auto_difference f t n aligned aout = Raise ValueError.
  Proof.
    intros H. split; [|split; [intros aoutc|]].
    - exact (@run_auto_invalid C (fmon K) _ _ f t n aligned aout H).
    - exact (@run_auto_invalid C (cmon K) _ _ f t n aligned aoutc H).
    - exact (@run_auto_invalid C (fmon K) _ _ f t n aligned aout H).
  Qed.

  Lemma cross_correlate_complex_entries (f1 f2 : list C) t1 t2 n aligned :
    valid_cross f1 f2 t1 t2 -> (0 < n)%nat -> (t1 = None -> aligned = true -> n <= length f1 + 1)%nat ->
    exists out, cross_correlate_complex f1 f2 t1 t2 (Some n) aligned None = Ok out /\
      length out = (2 * n - 1)%nat /\
      (forall k, (k < n)%nat -> nth k out (c0 K) =
         corr_complex_spec (samples f1 t1) (samples f2 t2) (Z.of_nat k)) /\
      (forall k, (1 <= k < n)%nat -> nth (length out - k) out (c0 K) =
         corr_complex_spec (samples f1 t1) (samples f2 t2) (- Z.of_nat k)).
  Proof.
    intros HV H0 Hn. rewrite cross_correlate_complex_fresh by assumption. eexists. split; [reflexivity|].
    rewrite map_length, seq_length. split; [reflexivity|]. split; intros k Hk.
    - rewrite nth_map_seq by lia. rewrite lag_at_low by lia. reflexivity.
    - rewrite nth_map_seq by lia. rewrite lag_at_high by lia. reflexivity.
  Qed.

  (** ** C04 *)
  Lemma samples_arange A (f : list A) : samples f (Some (arange (length f))) = samples f None.
  Proof. reflexivity. Qed.

  Lemma valid_regular A B (f1 : list A) (f2 : list B) : length f1 = length f2 -> valid_cross f1 f2 None None.
  Proof. intros H. split; [exact H|exact I]. Qed.
  Lemma valid_arange A B (f1 : list A) (f2 : list B) : length f1 = length f2 -> f1 <> [] ->
    valid_cross f1 f2 (Some (arange (length f1))) (Some (arange (length f1))).
  Proof. intros H Hne. split; [exact H|]. rewrite arange_length. auto. Qed.

  Lemma regular_is_irregular (f1 f2 : list C) n aligned :
    length f1 = length f2 -> f1 <> [] -> (n <= length f1 + 1)%nat ->
    let t := Some (arange (length f1)) in
    cross_correlate f1 f2 None None (Some n) true None = cross_correlate f1 f2 t t (Some n) aligned None /\
    cross_difference f1 f2 None None (Some n) true None = cross_difference f1 f2 t t (Some n) aligned None /\
    ((0 < n)%nat -> cross_correlate_complex f1 f2 None None (Some n) true None =
                    cross_correlate_complex f1 f2 t t (Some n) aligned None) /\
    auto_correlate f1 None (Some n) true None = auto_correlate f1 t (Some n) aligned None /\
    auto_correlate_complex f1 None (Some n) true None = auto_correlate_complex f1 t (Some n) aligned None /\
    auto_difference f1 None (Some n) true None = auto_difference f1 t (Some n) aligned None.
  Proof.
    intros HL Hne Hn t.
    assert (V0 : valid_cross f1 f2 None None) by (apply valid_regular; exact HL).
    assert (V1 : valid_cross f1 f2 t t) by (apply valid_arange; assumption).
    assert (V2 : valid_auto f1 t) by (split; [apply arange_length|exact Hne]).
    assert (E : samples f2 t = samples f2 None) by (unfold t; rewrite HL; reflexivity).
    repeat split.
    - rewrite !cross_correlate_fresh; auto; try discriminate. rewrite E. reflexivity.
    - rewrite !cross_difference_fresh; auto; try discriminate. rewrite E. reflexivity.
    - intros H0. rewrite !cross_correlate_complex_fresh; auto; try discriminate. rewrite E. reflexivity.
    - rewrite !auto_correlate_fresh; auto; try discriminate. exact I.
    - rewrite !auto_correlate_complex_fresh; auto; try discriminate. exact I.
    - rewrite !auto_difference_fresh; auto; try discriminate. exact I.
  Qed.

  Lemma cross_correlate_too_long (f1 f2 : list C) n :
    length f1 = length f2 -> (2 <= length f1)%nat -> (length f1 + 1 < n)%nat ->
    cross_correlate f1 f2 None None (Some n) true None = Raise OutOfBounds.
  Proof.
    intros HL H2 Hn. unfold cross_correlate, run_cross, _inspect_cross_arguments. cbn [bind option_map].
    rewrite HL, Nat.eqb_refl. cbn [negb bind _default_out].
    apply _cross_corr_regular_oob; auto. rewrite repeat_length. exact Hn.
  Qed.

  (** ** C06 *)
  Lemma map_val_combine A B (h : A -> B) f (t : list Z) : map (map_val h) (combine f t) = combine (map h f) t.
  Proof. symmetry. apply combine_map_val. Qed.

  Lemma samples_map A B (h : A -> B) f t : samples (map h f) t = map (map_val h) (samples f t).
  Proof.
    destruct t; simpl; unfold regular; rewrite ?map_length; apply combine_map_val.
  Qed.

  Lemma times_of_samples A (f : list A) t :
    match t with Some t => length t = length f | None => True end ->
    other_times f t = map (map_val (fun _ => tt)) (samples f t).
  Proof.
    destruct t as [t|]; simpl; intros H.
    - unfold times. revert t H; induction f as [|x f IH]; intros [|y t] H; simpl in *; try lia; [reflexivity|].
      rewrite IH by lia. reflexivity.
    - unfold regular. generalize (arange (length f)) (arange_length (length f)). intros t H'.
      unfold times. revert t H'; induction f as [|x f IH]; intros [|y t] H'; simpl in *; try lia; [reflexivity|].
      rewrite IH by lia. reflexivity.
  Qed.

  Lemma sum_spec_values (M : CMon) A (d1 : list (sample M)) (d2 : list (sample A)) k :
    sum_spec M d1 (map (map_val (fun _ => tt)) d2) k = sum_spec M d1 d2 k.
  Proof.
    unfold sum_spec. rewrite <- (map_id d1) at 1.
    rewrite (@pairs_at_map _ _ _ _ (fun x => x) (map_val (fun _ => tt))) by reflexivity.
    rewrite Sum_map. reflexivity.
  Qed.
  Lemma sum_signed_spec_values (M : CMon) A (d1 : list (sample M)) (d2 : list (sample A)) k :
    sum_signed_spec M d1 (map (map_val (fun _ => tt)) d2) k = sum_signed_spec M d1 d2 k.
  Proof.
    unfold sum_signed_spec. rewrite <- (map_id d1) at 1.
    rewrite (@pairs_signed_map _ _ _ _ (fun x => x) (map_val (fun _ => tt))) by reflexivity.
    rewrite Sum_map. reflexivity.
  Qed.

  Lemma valid_cross_sum A B A' (f1 : list A) (f2 : list B) (g : list A') t1 t2 :
    valid_cross f1 f2 t1 t2 -> length g = length f1 -> valid_sum g t1 t2.
  Proof.
    intros [HL HV] Hg. destruct t1 as [t1|], t2 as [t2|]; simpl; try contradiction; auto.
    destruct HV as (H1 & H2 & H3). repeat split; [lia| |].
    - eapply nonnil_len; [exact Hg|exact H3].
    - eapply nonnil_len; [|exact H3]. lia.
  Qed.
  Lemma valid_cross_lens A B (f1 : list A) (f2 : list B) t1 t2 : valid_cross f1 f2 t1 t2 ->
    match t1 with Some t => length t = length f1 | None => True end /\
    match t2 with Some t => length t = length f2 | None => True end.
  Proof. intros [HL HV]. destruct t1, t2; tauto. Qed.

  (** other_times only depends on the number of frames *)
  Lemma other_times_len A B (f : list A) (g : list B) t : length f = length g -> other_times f t = other_times g t.
  Proof. intros H. destruct t; simpl; [reflexivity|]. rewrite H. reflexivity. Qed.

  Lemma sum_other (G : CMon) A B (f : list A) (d : list (sample G)) (g : list B) t k :
    length f = length g -> match t with Some t => length t = length g | None => True end ->
    sum_spec G d (other_times f t) k = sum_spec G d (samples g t) k.
  Proof.
    intros H Ht. rewrite (other_times_len _ _ t H), times_of_samples by exact Ht. apply sum_spec_values.
  Qed.
  Lemma sum_signed_other (G : CMon) A B (f : list A) (d : list (sample G)) (g : list B) t k :
    length f = length g -> match t with Some t => length t = length g | None => True end ->
    sum_signed_spec G d (other_times f t) k = sum_signed_spec G d (samples g t) k.
  Proof.
    intros H Ht. rewrite (other_times_len _ _ t H), times_of_samples by exact Ht. apply sum_signed_spec_values.
  Qed.

  (** cross_difference = (cross_sum |f1|^2 + cross_sum |f2|^2) - 2 cross_correlate *)
  Lemma difference_vs_correlation (f1 f2 : list C) t1 t2 n aligned inv1 inv2 :
    valid_cross f1 f2 t1 t2 -> (t1 = None -> n <= length f1 + 1)%nat ->
    exists d c s1 s2,
      cross_difference f1 f2 t1 t2 (Some n) aligned None = Ok d /\
      cross_correlate f1 f2 t1 t2 (Some n) aligned None = Ok c /\
      cross_sum (fgrp K) (map (@cnorm2 K) f1) t1 t2 (Some n) false inv1 None = Ok s1 /\
      cross_sum (fgrp K) (map (@cnorm2 K) f2) t2 t1 (Some n) false inv2 None = Ok s2 /\
      length d = n /\ length c = n /\ length s1 = n /\ length s2 = n /\
      forall k, (k < n)%nat ->
        nth k d (f0 K) = fsub K (fadd K (nth k s1 (f0 K)) (nth k s2 (f0 K))) (fmul K ftwo (nth k c (f0 K))).
  Proof.
    intros HV Hn. pose proof (valid_cross_swap HV) as HV2. destruct HV as [HL HV0].
    assert (HV : valid_cross f1 f2 t1 t2) by (split; assumption).
    destruct (valid_cross_lens HV) as [L1 L2].
    assert (Hn2 : t2 = None -> (n <= length f2 + 1)%nat).
    { intros E. destruct t1, t2; try contradiction; try discriminate. rewrite <- HL. auto. }
    pose proof (fun A => @cross_sum_real_fresh (fgrp K) (map (@cnorm2 K) f1) t1 t2 n inv1 A) as S1.
    pose proof (fun A => @cross_sum_real_fresh (fgrp K) (map (@cnorm2 K) f2) t2 t1 n inv2 A) as S2.
    specialize (S1 ltac:(eapply valid_cross_sum; [exact HV|apply map_length])).
    specialize (S2 ltac:(eapply valid_cross_sum; [exact HV2|apply map_length])).
    rewrite map_length in S1, S2.
    do 4 eexists.
    split; [apply cross_difference_fresh; auto|].
    split; [apply cross_correlate_fresh; auto|].
    split; [apply S1; exact Hn|]. split; [apply S2; exact Hn2|].
    rewrite !map_length, seq_length. repeat split.
    intros k Hk. rewrite !nth_map_seq by exact Hk. rewrite diff_corr.
    f_equal. f_equal.
    - rewrite samples_map. symmetry. apply (sum_other (fmon K)); [|exact L2]. rewrite map_length. exact HL.
    - rewrite samples_map. symmetry. apply (sum_other (fmon K)); [|exact L1]. rewrite map_length. symmetry; exact HL.
  Qed.

  (** ** C07 *)
  Lemma count_is_ones_correlation t1 t2 n : length t1 = length t2 -> t1 <> [] ->
    let ones := repeat (c1 K) (length t1) in
    exists c, cross_count (TArray t1) (Some (TArray t2)) (Some n) false None = Ok c /\
      cross_correlate ones ones (Some t1) (Some t2) (Some n) false None = Ok (map (fnat K) c).
  Proof.
    intros HL Hne ones. eexists. split; [apply cross_count_real_fresh|].
    assert (HV : valid_cross ones ones (Some t1) (Some t2)).
    { unfold ones. split; [reflexivity|]. rewrite repeat_length. repeat split; auto.
      destruct t1; [congruence|discriminate]. }
    rewrite cross_correlate_fresh by (auto; discriminate). f_equal. rewrite map_map. apply map_ext.
    intros k. simpl. unfold ones. apply corr_spec_ones; auto.
  Qed.
  Lemma count_is_ones_correlation_complex t1 t2 n : length t1 = length t2 -> t1 <> [] -> (0 < n)%nat ->
    let ones := repeat (c1 K) (length t1) in
    exists c, cross_count (TArray t1) (Some (TArray t2)) (Some n) true None = Ok c /\
      cross_correlate_complex ones ones (Some t1) (Some t2) (Some n) false None =
      Ok (map (fun m => cofre (fnat K m)) c).
  Proof.
    intros HL Hne Hn ones. eexists. split; [apply cross_count_complex_fresh; exact Hn|].
    assert (HV : valid_cross ones ones (Some t1) (Some t2)).
    { unfold ones. split; [reflexivity|]. rewrite repeat_length. repeat split; auto.
      destruct t1; [congruence|discriminate]. }
    rewrite cross_correlate_complex_fresh by (auto; discriminate). f_equal. rewrite map_map. apply map_ext.
    intros k. simpl. unfold ones. apply corr_complex_spec_ones; auto.
  Qed.
  Lemma auto_count_is_ones_correlation t n : t <> [] ->
    let ones := repeat (c1 K) (length t) in
    exists c, auto_count (TArray t) (Some n) None = Ok c /\
      auto_correlate ones (Some t) (Some n) false None = Ok (map (fnat K) c).
  Proof.
    intros Hne ones. eexists. split; [apply auto_count_fresh|].
    assert (HV : valid_auto ones (Some t)).
    { unfold ones. split; [rewrite repeat_length; reflexivity|]. destruct t; [congruence|discriminate]. }
    rewrite auto_correlate_fresh by (auto; discriminate). f_equal. rewrite map_map. apply map_ext.
    intros k. simpl. unfold ones. apply acorr_spec_ones; auto.
  Qed.

  (** ** C10 *)
  Lemma zip_add_fresh (M : CMon) (prev : list M) S n : length prev = n ->
    plus_cells M prev S = zip_add M prev (map S (seq 0 n)).
  Proof. intros <-. symmetry. apply zip_add_map. Qed.

  Lemma cross_correlate_adds (f1 f2 : list C) t1 t2 n aligned prev :
    valid_cross f1 f2 t1 t2 -> (t1 = None -> aligned = true -> n <= length f1 + 1)%nat -> length prev = n ->
    exists fresh, cross_correlate f1 f2 t1 t2 (Some n) aligned None = Ok fresh /\ length fresh = n /\
      cross_correlate f1 f2 t1 t2 (Some n) aligned (Some prev) = Ok (zip_add (fmon K) prev fresh).
  Proof.
    intros HV Hn HL. eexists. split; [apply cross_correlate_fresh; auto|].
    split; [rewrite map_length; apply seq_length|].
    rewrite cross_correlate_aout; [|auto|rewrite HL; auto]. f_equal. apply zip_add_fresh. exact HL.
  Qed.
  Lemma cross_correlate_complex_adds (f1 f2 : list C) t1 t2 n aligned prev :
    valid_cross f1 f2 t1 t2 -> (0 < n)%nat -> (t1 = None -> aligned = true -> n <= length f1 + 1)%nat ->
    length prev = (2 * n - 1)%nat ->
    exists fresh, cross_correlate_complex f1 f2 t1 t2 (Some n) aligned None = Ok fresh /\
      length fresh = (2 * n - 1)%nat /\
      cross_correlate_complex f1 f2 t1 t2 (Some n) aligned (Some prev) = Ok (zip_add (cmon K) prev fresh).
  Proof.
    intros HV H0 Hn HL. eexists. split; [apply cross_correlate_complex_fresh; auto|].
    split; [rewrite map_length; apply seq_length|].
    rewrite (@cross_correlate_complex_aout K f1 f2 t1 t2 (Some n) aligned prev n) by auto. f_equal.
    apply (zip_add_fresh (cmon K)). exact HL.
  Qed.
  Lemma cross_difference_adds (f1 f2 : list C) t1 t2 n aligned prev :
    valid_cross f1 f2 t1 t2 -> (t1 = None -> aligned = true -> n <= length f1 + 1)%nat -> length prev = n ->
    exists fresh, cross_difference f1 f2 t1 t2 (Some n) aligned None = Ok fresh /\ length fresh = n /\
      cross_difference f1 f2 t1 t2 (Some n) aligned (Some prev) = Ok (zip_add (fmon K) prev fresh).
  Proof.
    intros HV Hn HL. eexists. split; [apply cross_difference_fresh; auto|].
    split; [rewrite map_length; apply seq_length|].
    rewrite cross_difference_aout; [|auto|rewrite HL; auto]. f_equal. apply zip_add_fresh. exact HL.
  Qed.
  Lemma auto_correlate_adds (f : list C) t n aligned prev :
    valid_auto f t -> (t = None -> aligned = true -> n <= length f + 1)%nat -> length prev = n ->
    exists fresh, auto_correlate f t (Some n) aligned None = Ok fresh /\ length fresh = n /\
      auto_correlate f t (Some n) aligned (Some prev) = Ok (zip_add (fmon K) prev fresh).
  Proof.
    intros HV Hn HL. eexists. split; [apply auto_correlate_fresh; auto|].
    split; [rewrite map_length; apply seq_length|].
    rewrite auto_correlate_aout; [|auto|rewrite HL; auto]. f_equal. apply zip_add_fresh. exact HL.
  Qed.
  Lemma auto_correlate_complex_adds (f : list C) t n aligned prev :
    valid_auto f t -> (t = None -> aligned = true -> n <= length f + 1)%nat -> length prev = n ->
    exists fresh, auto_correlate_complex f t (Some n) aligned None = Ok fresh /\ length fresh = n /\
      auto_correlate_complex f t (Some n) aligned (Some prev) = Ok (zip_add (cmon K) prev fresh).
  Proof.
    intros HV Hn HL. eexists. split; [apply auto_correlate_complex_fresh; auto|].
    split; [rewrite map_length; apply seq_length|].
    rewrite auto_correlate_complex_aout; [|auto|rewrite HL; auto]. f_equal. apply (zip_add_fresh (cmon K)). exact HL.
  Qed.
  Lemma auto_difference_adds (f : list C) t n aligned prev :
    valid_auto f t -> (t = None -> aligned = true -> n <= length f + 1)%nat -> length prev = n ->
    exists fresh, auto_difference f t (Some n) aligned None = Ok fresh /\ length fresh = n /\
      auto_difference f t (Some n) aligned (Some prev) = Ok (zip_add (fmon K) prev fresh).
  Proof.
    intros HV Hn HL. eexists. split; [apply auto_difference_fresh; auto|].
    split; [rewrite map_length; apply seq_length|].
    rewrite auto_difference_aout; [|auto|rewrite HL; auto]. f_equal. apply zip_add_fresh. exact HL.
  Qed.
End Api.

Lemma cross_sum_adds (G : QGrp) (f : list G) t t_other n inv prev :
  valid_sum f t t_other -> (t = None -> n <= length f + 1)%nat -> length prev = n ->
  exists fresh, cross_sum G f t t_other (Some n) false inv None = Ok fresh /\ length fresh = n /\
    cross_sum G f t t_other (Some n) false inv (Some prev) = Ok (zip_add G prev fresh).
Proof.
  intros HV Hn HL. eexists. split; [apply cross_sum_real_fresh; auto|].
  split; [rewrite map_length; apply seq_length|].
  rewrite cross_sum_real_aout; [|auto|rewrite HL; auto]. f_equal. apply zip_add_fresh. exact HL.
Qed.
Lemma cross_sum_complex_adds (G : QGrp) (f : list G) t t_other n inv prev :
  valid_sum f t t_other -> (0 < n)%nat -> (t = None -> n <= length f + 1)%nat -> length prev = (2 * n - 1)%nat ->
  exists fresh, cross_sum G f t t_other (Some n) true inv None = Ok fresh /\ length fresh = (2 * n - 1)%nat /\
    cross_sum G f t t_other (Some n) true inv (Some prev) = Ok (zip_add G prev fresh).
Proof.
  intros HV H0 Hn HL. eexists. split; [apply cross_sum_complex_fresh; auto|].
  split; [rewrite map_length; apply seq_length|].
  rewrite (@cross_sum_complex_aout G f t t_other (Some n) inv prev n) by auto. f_equal. apply zip_add_fresh. exact HL.
Qed.
Lemma auto_sum_adds (G : QGrp) (f : list G) t n prev :
  valid_auto f t -> (t = None -> n <= length f + 1)%nat -> length prev = n ->
  exists fresh, auto_sum G f t (Some n) None = Ok fresh /\ length fresh = n /\
    auto_sum G f t (Some n) (Some prev) = Ok (zip_add G prev fresh).
Proof.
  intros HV Hn HL. eexists. split; [apply auto_sum_fresh; auto|].
  split; [rewrite map_length; apply seq_length|].
  rewrite auto_sum_aout; [|auto|rewrite HL; auto]. f_equal. apply zip_add_fresh. exact HL.
Qed.
Lemma counts_add t1 t2 n prev prevc : length prev = n -> (0 < n)%nat -> length prevc = (2 * n - 1)%nat ->
  (exists fresh, cross_count t1 t2 (Some n) false None = Ok fresh /\ length fresh = n /\
    cross_count t1 t2 (Some n) false (Some prev) = Ok (zip_add natmon prev fresh)) /\
  (exists fresh, cross_count t1 t2 (Some n) true None = Ok fresh /\ length fresh = (2 * n - 1)%nat /\
    cross_count t1 t2 (Some n) true (Some prevc) = Ok (zip_add natmon prevc fresh)) /\
  (exists fresh, auto_count t1 (Some n) None = Ok fresh /\ length fresh = n /\
    auto_count t1 (Some n) (Some prev) = Ok (zip_add natmon prev fresh)).
Proof.
  intros HL H0 HLc. split; [|split].
  - eexists. split; [apply cross_count_real_fresh|]. split; [rewrite map_length; apply seq_length|].
    rewrite cross_count_real_aout. f_equal. apply (zip_add_fresh natmon). exact HL.
  - eexists. split; [apply cross_count_complex_fresh; exact H0|]. split; [rewrite map_length; apply seq_length|].
    rewrite (@cross_count_complex_aout _ _ _ _ n) by auto. f_equal. apply (zip_add_fresh natmon). exact HLc.
  - eexists. split; [apply auto_count_fresh|]. split; [rewrite map_length; apply seq_length|].
    rewrite auto_count_aout. f_equal. apply (zip_add_fresh natmon). exact HL.
Qed.

(** From one step to sequences of data sets: [call d aout] is one call. *)
Lemma accumulate_fresh D (M : CMon) (call : D -> option (list M) -> res (list M)) n (ok : D -> Prop)
  (Hadd : forall d prev, ok d -> length prev = n ->
     exists fresh, call d None = Ok fresh /\ length fresh = n /\ call d (Some prev) = Ok (zip_add M prev fresh))
  ds prev : Forall ok ds -> length prev = n ->
  exists out, accumulate call prev ds = Ok out /\ length out = n /\
    forall k, (k < n)%nat -> nth k out (m0 M) =
      madd M (nth k prev (m0 M))
        (Sum M ds (fun d => match call d None with Ok fresh => nth k fresh (m0 M) | Raise _ => m0 M end)).
Proof.
  intros Hok. revert prev. induction Hok as [|d ds Hd Hok IH]; intros prev HL; simpl.
  - exists prev. split; [reflexivity|]. split; [exact HL|]. intros k Hk. rewrite Sum_nil, madd_0_r. reflexivity.
  - destruct (Hadd d prev Hd HL) as (fresh & E1 & Lf & E2). rewrite E2. cbn [bind].
    destruct (IH (zip_add M prev fresh)) as (out & Eo & Lo & Ho).
    + rewrite zip_add_length by congruence. exact HL.
    + exists out. split; [exact Eo|]. split; [exact Lo|]. intros k Hk. rewrite Ho by exact Hk.
      rewrite nth_zip_add by congruence. rewrite Sum_cons, E1. symmetry. apply madd_assoc.
Qed.

Lemma accumulate_order D (M : CMon) (call : D -> option (list M) -> res (list M)) n (ok : D -> Prop)
  (Hadd : forall d prev, ok d -> length prev = n ->
     exists fresh, call d None = Ok fresh /\ length fresh = n /\ call d (Some prev) = Ok (zip_add M prev fresh))
  ds ds' prev : Forall ok ds -> Permutation ds ds' -> length prev = n ->
  accumulate call prev ds = accumulate call prev ds'.
Proof.
  intros Hok HP HL.
  assert (Hok' : Forall ok ds') by (eapply Permutation_Forall; eassumption).
  destruct (@accumulate_fresh _ _ _ _ _ Hadd ds prev Hok HL) as (o & -> & Lo & Ho).
  destruct (@accumulate_fresh _ _ _ _ _ Hadd ds' prev Hok' HL) as (o' & -> & Lo' & Ho').
  f_equal. apply (list_nth_ext o o' (m0 M)); [congruence|]. intros k Hk.
  rewrite Ho, Ho' by lia. f_equal. apply Sum_Permutation. exact HP.
Qed.
