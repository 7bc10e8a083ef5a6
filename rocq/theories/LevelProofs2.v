(** Proofs about multilevel averaging, continued: linear data, range, complex data, times. *)
From Coq Require Import ZifyBool ZifyNat Sorted Field Ring.
From Verif Require Import Base Ordered AvgModel Kernels KernelProofs NormModel MultiModel MultiProofs RegularProofs CoreProofs3 AvgProofs AvgProofs2 MultiLevels LevelModel LevelProofs.
Set Implicit Arguments.
Ltac Zify.zify_post_hook ::= Z.div_mod_to_equations.

Section More.
  Variable K : OFld.
  Add Field Klv2 : (flaw K).
  Local Notation at_ l i := (nth i%nat l (f0 K)).
  Lemma averaged_linear (data : list K) c d l k : (forall p, p < length data -> at_ data p = fadd K (fmul K c (fnat K p)) d) -> k * 2 ^ l < length data ->
    at_ (averaged K data l) k = fadd K (fmul K c (fnat K (k * 2 ^ l))) d.
  Proof.
    intros H. revert k. induction l as [|l IH]; intros k Hk; [cbn [averaged Nat.pow]; rewrite Nat.mul_1_r in *; apply H; exact Hk|].
    pose proof Hk as Hk1. rewrite <- averaged_lt in Hk1. cbn [averaged] in *. rewrite map_length, seq_length in Hk1. rewrite nth_map_seq by exact Hk1. rewrite pow2_S in *.
    assert (E : forall j, j < length (averaged K data l) -> at_ (averaged K data l) j = fadd K (fmul K (fmul K c (fnat K (2 ^ l))) (fnat K j)) d).
    { intros j Hj. apply averaged_lt in Hj. rewrite IH by exact Hj. rewrite fnat_mul. ring. }
    assert (Hj : 2 * k < length (averaged K data l)) by (apply averaged_lt; lia).
    rewrite (@smooth_linear K _ _ _ _ E) by exact Hj. rewrite E by exact Hj. replace (k * (2 * 2 ^ l)) with (2 ^ l * (2 * k)) by lia. rewrite (fnat_mul K (2 ^ l)). ring.
  Qed.
  Lemma averaged_between (data : list K) lo hi l : (forall p, p < length data -> fle lo (at_ data p) /\ fle (at_ data p) hi) ->
    forall k, k < length (averaged K data l) -> fle lo (at_ (averaged K data l) k) /\ fle (at_ (averaged K data l) k) hi.
  Proof.
    intros H. induction l as [|l IH]; [exact H|]. intros k Hk. cbn [averaged] in *. rewrite map_length, seq_length in Hk. rewrite nth_map_seq by exact Hk. apply smooth_between; [exact IH|lia].
  Qed.
  Lemma averaged_first (data : list K) l : 0 < length data -> at_ (averaged K data l) 0 = at_ data 0.
  Proof.
    intros H. induction l as [|l IH]; [reflexivity|]. assert (HL : 0 < length (averaged K data l)) by (apply averaged_lt; lia). cbn [averaged]. rewrite nth_map_seq by lia. exact IH.
  Qed.

  (** ** Complex data *)
  Lemma combine_parts (a b : list K) : length a = length b -> map cre (combine a b) = a /\ map cim (combine a b) = b.
  Proof.
    revert b. induction a as [|x a IH]; intros [|y b] H; cbn in H; try discriminate; [split; reflexivity|]. destruct (IH b ltac:(lia)) as [E1 E2]. cbn [combine map]. rewrite E1, E2. split; reflexivity.
  Qed.
  Lemma map_strided A B (g : A -> B) d a b f : map g (strided d a b f) = strided (g d) a b (map g f).
  Proof. unfold strided. rewrite map_map. apply map_ext. intros k. symmetry. apply map_nth. Qed.
  Lemma map_level_row A B (g : A -> B) size data : map (option_map g) (level_row size data) = level_row size (map g data).
  Proof. unfold level_row. rewrite map_app, map_map, !firstn_length, map_length, firstn_map, map_map. f_equal. induction (size - _) as [|n IH]; [reflexivity|]. cbn [repeat map]. rewrite IH. reflexivity. Qed.
  (** multilevel commutes with a projection which commutes with the averaging step *)
  Lemma level_rows_map A B (g : A -> B) (a0 : A) (ca : list A -> res (list A)) (cb : list B -> res (list B)) size binning r :
    (forall d d', 2 < length d -> ca d = Ok d' -> cb (map g d) = Ok (map g d')) -> (forall d d', ca d = Ok d' -> 2 < length d) ->
    forall more l data rows, level_rows a0 ca size binning r l more data = Ok rows -> level_rows (g a0) cb size binning r l more (map g data) = Ok (map (map (option_map g)) rows).
  Proof.
    intros H H'. induction more as [|more IH]; intros l data rows; cbn [level_rows].
    - intros E. injection E as <-. cbn [map]. rewrite map_level_row. reflexivity.
    - unfold next_level. destruct (binning =? BINNING_MEAN)%Z; [|destruct (binning =? BINNING_FIRST)%Z].
      + destruct (ca data) as [c|] eqn:E; [|discriminate]. cbn [bind]. rewrite (H _ _ (H' _ _ E) E). cbn [bind]. intros X.
        destruct (level_rows a0 ca size binning r (S l) more (strided a0 0 (length c) c)) as [rs|] eqn:F; [|discriminate]. cbn [bind] in X. injection X as <-.
        apply IH in F. rewrite map_strided in F. rewrite map_length, F. cbn [bind map]. rewrite map_level_row. reflexivity.
      + cbn [bind]. intros X. destruct (level_rows a0 ca size binning r (S l) more _) as [rs|] eqn:F; [|discriminate]. cbn [bind] in X. injection X as <-.
        apply IH in F. rewrite map_strided in F. rewrite map_length, F. cbn [bind map]. rewrite map_level_row. reflexivity.
      + cbn [bind]. intros X. destruct (level_rows a0 ca size binning r (S l) more _) as [rs|] eqn:F; [|discriminate]. cbn [bind] in X. injection X as <-.
        apply IH in F. unfold choose_level in *. rewrite map_length. destruct (r l); rewrite map_strided in F; rewrite F; cbn [bind map]; rewrite map_level_row; reflexivity.
  Qed.
  Lemma real_conv_inv junk (d d' : list K) : real_conv K junk d = Ok d' -> 2 < length d /\ length d' = length d.
  Proof.
    unfold real_conv. destruct (Nat.le_gt_cases (length d) 2) as [C|C].
    - rewrite convolve_short by (rewrite fresh_length; exact C). discriminate.
    - rewrite convolve_ok by (rewrite ?fresh_length; first [reflexivity|exact C]). intros E. injection E as <-. rewrite map_length, seq_length. split; [exact C|reflexivity].
  Qed.
  Lemma complex_conv_parts junk (d d' : list (Cx K)) : complex_conv K junk d = Ok d' -> 2 < length d /\ real_conv K junk (map cre d) = Ok (map cre d') /\ real_conv K junk (map cim d) = Ok (map cim d').
  Proof.
    unfold complex_conv. destruct (real_conv K junk (map cre d)) as [re|] eqn:E1; [|discriminate]. cbn [bind]. destruct (real_conv K junk (map cim d)) as [im|] eqn:E2; [|discriminate]. cbn [bind].
    intros E. injection E as <-. apply real_conv_inv in E1 as [A1 B1]. apply real_conv_inv in E2 as [A2 B2]. rewrite !map_length in *. destruct (@combine_parts re im ltac:(lia)) as [-> ->]. repeat split; assumption.
  Qed.
  Lemma complex_conv_ok junk (d : list (Cx K)) : 2 < length d -> exists d', complex_conv K junk d = Ok d' /\ length d' = length d.
  Proof.
    intros H. unfold complex_conv, real_conv. rewrite !convolve_ok by (rewrite ?fresh_length, ?map_length; first [reflexivity|exact H]). cbn [bind]. eexists. split; [reflexivity|].
    etransitivity; [apply combine_length|]. rewrite !map_length, !seq_length. lia.
  Qed.
End More.

(** * Merged times *)
Section Times.
  Lemma sorted_seq a n : StronglySorted lt (seq a n).
  Proof. revert a. induction n as [|n IH]; intros a; cbn [seq]; constructor; [apply IH|]. apply Forall_forall. intros x Hx. apply in_seq in Hx. lia. Qed.
  Lemma sorted_map_mul a n c : 0 < c -> StronglySorted lt (map (fun k => k * c) (seq a n)).
  Proof.
    intros Hc. revert a. induction n as [|n IH]; intros a; cbn [seq map]; constructor; [apply IH|]. apply Forall_forall. intros x Hx. apply in_map_iff in Hx. destruct Hx as (k & <- & Hk). apply in_seq in Hk. nia.
  Qed.
  Lemma sorted_app (a b : list nat) : StronglySorted lt (a ++ b) <-> StronglySorted lt a /\ StronglySorted lt b /\ (forall x y, In x a -> In y b -> x < y).
  Proof.
    induction a as [|x a IH]; cbn [app].
    - split; [intros H; repeat split; [constructor|exact H|intros ? ? []]|tauto].
    - split.
      + intros H. inversion H as [|? ? H1 H2]; subst. apply IH in H1 as (A & B & C). rewrite Forall_app in H2. destruct H2 as [D E]. repeat split; [constructor; assumption|exact B|].
        intros u v [<-|Hu] Hv; [rewrite Forall_forall in E; apply E; exact Hv|apply C; assumption].
      + intros (A & B & C). inversion A as [|? ? H1 H2]; subst. constructor; [apply IH; repeat split; try assumption; intros; apply C; [right; assumption|assumption]|].
        apply Forall_app. split; [exact H2|]. apply Forall_forall. intros v Hv. apply C; [left; reflexivity|exact Hv].
  Qed.
  (** One level of merged times *)
  Definition level_times (n c l : nat) : list nat := map (fun k => k * (c * 2 ^ l)) (seq (n / 2) (n / 2)).
  Lemma level_times_bounds n c l t : n mod 2 = 0 -> 0 < c -> In t (level_times n c l) -> n / 2 * (c * 2 ^ l) <= t <= (n - 1) * (c * 2 ^ l) /\ t < n / 2 * (c * 2 ^ S l).
  Proof.
    intros Hn Hc H. unfold level_times in H. apply in_map_iff in H. destruct H as (k & <- & Hk). apply in_seq in Hk. rewrite pow2_S. pose proof (pow2_pos l) as P. assert (0 < c * 2 ^ l) by nia.
    replace (n / 2 * (c * (2 * 2 ^ l))) with (n / 2 * 2 * (c * 2 ^ l)) by lia. revert H. generalize (c * 2 ^ l). intros e He. clear P. split; [split|]; try (apply Nat.mul_le_mono_r; lia). apply Nat.mul_lt_mono_pos_r; lia.
  Qed.
  Lemma level_base_mono n c l m : l <= m -> n / 2 * (c * 2 ^ l) <= n / 2 * (c * 2 ^ m).
  Proof. intros H. apply Nat.mul_le_mono_l, Nat.mul_le_mono_l, Nat.pow_le_mono_r; lia. Qed.
  Lemma levels_sorted n c s m : n mod 2 = 0 -> 0 < c -> StronglySorted lt (flat_map (level_times n c) (seq s m)).
  Proof.
    intros Hn Hc. revert s. induction m as [|m IH]; intros s; [constructor|]. cbn [seq flat_map]. apply sorted_app. repeat split.
    - unfold level_times. apply sorted_map_mul. pose proof (pow2_pos s). nia.
    - apply IH.
    - intros x y Hx Hy. apply level_times_bounds in Hx; [|assumption|assumption]. apply in_flat_map in Hy. destruct Hy as (l & Hl & Hy). apply in_seq in Hl. apply level_times_bounds in Hy; [|assumption|assumption].
      pose proof (@level_base_mono n c (S s) l ltac:(lia)). lia.
  Qed.
  Lemma full_sorted n m : n mod 2 = 0 -> StronglySorted lt (seq 0 n ++ flat_map (level_times n 1) (seq 1 m)).
  Proof.
    intros Hn. apply sorted_app. repeat split; [apply sorted_seq|apply levels_sorted; [exact Hn|lia]|]. intros x y Hx Hy. apply in_seq in Hx. apply in_flat_map in Hy. destruct Hy as (l & Hl & Hy). apply in_seq in Hl.
    apply level_times_bounds in Hy; [|assumption|lia]. pose proof (@level_base_mono n 1 1 l ltac:(lia)) as X. cbn [Nat.pow Nat.mul] in X. change (1 * (2 * 1)) with 2 in X. lia.
  Qed.
  Lemma skipn_half n : n mod 2 = 0 -> skipn (n / 2) (seq 0 n) = seq (n / 2) (n / 2).
  Proof. intros H. replace (seq 0 n) with (seq 0 (n / 2 + n / 2)) by (f_equal; lia). rewrite seq_app, skipn_app, skipn_all2 by (rewrite seq_length; lia). rewrite seq_length, Nat.sub_diag. reflexivity. Qed.
  Lemma map_add_seq s m : map (fun i => s + i) (seq 0 m) = seq s m.
  Proof.
    revert s. induction m as [|m IH]; intros s; [reflexivity|]. cbn [seq map]. rewrite Nat.add_0_r, <- seq_shift, map_map, <- (IH (S s)). f_equal. apply map_ext. intros; lia.
  Qed.
  Lemma half_times_eq n m c s : flat_map (fun i => map (fun k => k * (c * 2 ^ s * 2 ^ i)) (seq (n / 2) (n / 2))) (seq 0 m) = flat_map (level_times n c) (seq s m).
  Proof.
    replace (seq s m) with (map (fun i => s + i) (seq 0 m)) by apply map_add_seq.
    rewrite flat_map_concat_map, flat_map_concat_map, map_map. f_equal. apply map_ext. intros i. unfold level_times. apply map_ext. intros k. rewrite Nat.pow_add_r. lia.
  Qed.
  Lemma map_flat_map A B C (g : B -> C) (f : A -> list B) l : map g (flat_map f l) = flat_map (fun x => map g (f x)) l.
  Proof. rewrite !flat_map_concat_map, concat_map, map_map. reflexivity. Qed.
  Lemma merge_half_ok W n (data : list (list W)) : n mod 2 = 0 -> merge_half n data = Ok (flat_map (level_times n 1) (seq 0 (length data)), flat_map (skipn (n / 2)) data).
  Proof.
    intros Hn. unfold merge_half. rewrite Hn. cbn [Nat.eqb negb]. rewrite skipn_half by exact Hn. do 2 f_equal. rewrite !flat_map_concat_map. f_equal. apply map_ext. intros i. unfold level_times. apply map_ext. intros k. lia.
  Qed.
  Lemma merge_full_ok W n y0 (rest : list (list W)) : n mod 2 = 0 ->
    merge_full n (y0 :: rest) = Ok (seq 0 n ++ flat_map (level_times n 1) (seq 1 (length rest)), y0 ++ flat_map (skipn (n / 2)) rest).
  Proof.
    intros Hn. unfold merge_full. rewrite merge_half_ok by exact Hn. cbn [bind fst snd]. do 3 f_equal. rewrite map_flat_map. rewrite <- (half_times_eq n (length rest) 1 1).
    rewrite !flat_map_concat_map. f_equal. apply map_ext. intros i. unfold level_times. rewrite map_map. apply map_ext. intros k. cbn [Nat.pow]. lia.
  Qed.
  Lemma merge_odd W n (data : list (list W)) : n mod 2 = 1 -> merge_half n data = Raise ValueError /\ (data <> [] -> merge_full n data = Raise ValueError).
  Proof. intros Hn. unfold merge_full, merge_half. rewrite Hn. split; [reflexivity|]. intros H. destruct data; [destruct (H eq_refl)|reflexivity]. Qed.
  Lemma combine_app' A B (a1 a2 : list A) (b1 b2 : list B) : length a1 = length b1 -> combine (a1 ++ a2) (b1 ++ b2) = combine a1 b1 ++ combine a2 b2.
  Proof. revert b1. induction a1 as [|x a1 IH]; intros [|y b1] H; cbn in H; try discriminate; [reflexivity|]. cbn [app combine]. rewrite IH by lia. reflexivity. Qed.
  Lemma combine_map_nth A B (g : nat -> A) a n (b : list B) d : length b = n -> combine (map g (seq a n)) b = map (fun k => (g k, nth (k - a) b d)) (seq a n).
  Proof.
    revert a n. induction b as [|y b IH]; intros a n E; cbn in E; subst n; [reflexivity|]. cbn [seq map combine]. rewrite IH by reflexivity. rewrite Nat.sub_diag. cbn [nth]. f_equal. apply map_ext_in. intros k Hk. apply in_seq in Hk.
    replace (k - a) with (S (k - S a)) by lia. reflexivity.
  Qed.
  Lemma level_times_length n c l : length (level_times n c l) = n / 2.
  Proof. unfold level_times. rewrite map_length, seq_length. reflexivity. Qed.
  Lemma combine_levels W n c s (rows : list (list W)) d : n mod 2 = 0 -> (forall row, In row rows -> length row = n) ->
    combine (flat_map (level_times n c) (seq s (length rows))) (flat_map (skipn (n / 2)) rows) =
    flat_map (fun l => map (fun k => (k * (c * 2 ^ l), nth k (nth (l - s) rows []) d)) (seq (n / 2) (n / 2))) (seq s (length rows)).
  Proof.
    intros Hn. revert s. induction rows as [|row rows IH]; intros s HR; [reflexivity|]. pose proof (HR row (or_introl eq_refl)) as HL.
    cbn [length seq flat_map]. rewrite combine_app' by (rewrite level_times_length, skipn_length; lia). rewrite IH by (intros; apply HR; right; assumption). f_equal.
    - unfold level_times. rewrite combine_map_nth with (d := d) by (rewrite skipn_length; lia). apply map_ext_in. intros k Hk. apply in_seq in Hk. rewrite nth_skipn, Nat.sub_diag. cbn [nth]. do 2 f_equal. lia.
    - rewrite !flat_map_concat_map. f_equal. apply map_ext_in. intros l Hl. apply in_seq in Hl. apply map_ext. intros k. replace (l - s) with (S (l - S s)) by lia. reflexivity.
  Qed.
End Times.

(** * Shape of the result of multilevel *)
Section Shape.
  Variable V : Type.
  Variable v0 : V.
  Variable conv : list V -> res (list V).
  Hypothesis conv_ok : forall d, 2 < length d -> exists d', conv d = Ok d' /\ length d' = length d.
  Fixpoint chain (binning : Z) (r : nat -> bool) (data : list V) (l : nat) : list V :=
    match l with O => data | S l => match next_level v0 conv binning (r l) (chain binning r data l) with Ok d => d | Raise _ => [] end end.
  Lemma chain_ok size binning r data l : 2 <= size -> l <= levels_of size (length data) ->
    length (chain binning r data l) <= (length data + 2 ^ l - 1) / 2 ^ l /\ (binning = BINNING_MEAN -> length (chain binning r data l) = (length data + 2 ^ l - 1) / 2 ^ l) /\
    (l < levels_of size (length data) -> next_level v0 conv binning (r l) (chain binning r data l) = Ok (chain binning r data (S l))).
  Proof.
    intros Hs. destruct (@levels_of_spec size (length data) ltac:(lia)) as [_ HS].
    assert (ST : forall l, l < levels_of size (length data) -> (binning = BINNING_MEAN -> length (chain binning r data l) = (length data + 2 ^ l - 1) / 2 ^ l) ->
      next_level v0 conv binning (r l) (chain binning r data l) = Ok (chain binning r data (S l)) /\ length (chain binning r data (S l)) <= (length (chain binning r data l) + 1) / 2 /\
      (binning = BINNING_MEAN -> length (chain binning r data (S l)) = (length (chain binning r data l) + 1) / 2)).
    { clear l. intros l Hl HM. cbn [chain]. unfold next_level. destruct (Z.eqb_spec binning BINNING_MEAN) as [E|E].
      - assert (HL : 2 < length (chain binning r data l)). { rewrite HM by exact E. apply div_up_lt; [apply pow2_pos|]. specialize (HS l Hl). pose proof (pow2_pos l). nia. }
        destruct (conv_ok _ HL) as (d' & -> & HL'). cbn [bind]. rewrite strided_length, Nat.sub_0_r, HL'. repeat split; lia.
      - destruct (binning =? BINNING_FIRST)%Z.
        + rewrite strided_length, Nat.sub_0_r. repeat split; lia.
        + unfold choose_level. destruct (r l); rewrite strided_length; repeat split; try lia. }
    assert (M : forall l, l <= levels_of size (length data) -> length (chain binning r data l) <= (length data + 2 ^ l - 1) / 2 ^ l /\ (binning = BINNING_MEAN -> length (chain binning r data l) = (length data + 2 ^ l - 1) / 2 ^ l)).
    { clear l. induction l as [|l IH]; intros Hl.
      - cbn [chain Nat.pow]. rewrite Nat.div_1_r. split; lia.
      - destruct (IH ltac:(lia)) as [A B]. destruct (ST l ltac:(lia) B) as (_ & C & D). rewrite pow2_S, <- div_up_twice by apply pow2_pos. split.
        + etransitivity; [exact C|]. apply Nat.div_le_mono; lia.
        + intros E. rewrite D, B by exact E. reflexivity. }
    intros Hl. destruct (M l Hl) as [A B]. split; [exact A|split; [exact B|]]. intros Hl'. apply (ST l Hl' B).
  Qed.
  Lemma multilevel_shape data size binning r : _inspect_binning binning = Ok binning -> (2 <= size)%Z ->
    let n := Z.to_nat size in let L := levels_of n (length data) in
    exists rows, multilevel v0 conv data size binning r = Ok rows /\ length rows = S L /\ (forall row, In row rows -> length row = n) /\
      forall l k, l <= L -> k < n -> length data <= k * 2 ^ l -> nth k (nth l rows []) None = None.
  Proof.
    intros Hb Hs n L. assert (Hn : 2 <= n) by (unfold n; lia). exists (map (fun i => level_row n (chain binning r data i)) (seq 0 (S L))). split.
    { apply multilevel_ok; try assumption; [reflexivity|]. intros i Hi. apply (@chain_ok n binning r data i); [exact Hn|apply Nat.lt_le_incl; exact Hi|exact Hi]. }
    rewrite map_length, seq_length. split; [reflexivity|split].
    - intros row H. apply in_map_iff in H. destruct H as (i & <- & _). apply level_row_length.
    - intros l k Hl Hk HN. rewrite nth_map_seq by lia. rewrite (@level_row_nth V v0) by exact Hk. destruct (@chain_ok n binning r data l) as [A _]; [exact Hn|exact Hl|].
      destruct (Nat.ltb_spec k (length (chain binning r data l))) as [C|C]; [|reflexivity]. exfalso. assert (k < (length data + 2 ^ l - 1) / 2 ^ l) as D by lia. apply div_up_lt in D; [lia|apply pow2_pos].
  Qed.
End Shape.
Lemma mul_inv_cancel (K : Fld) (c x : K) : c <> f0 K -> fmul K c (fmul K (finv K c) x) = x.
Proof.
  intros H. destruct (flaw K) as [R _ _ I]. pose proof (I c H) as E. rewrite (Rmul_assoc R). rewrite (Rmul_comm R c), E. apply (Rmul_1_l R).
Qed.
Lemma real_conv_ok (K : OFld) junk (d : list K) : 2 < length d -> exists d', real_conv K junk d = Ok d' /\ length d' = length d.
Proof.
  intros H. unfold real_conv. rewrite convolve_ok by (rewrite ?fresh_length; first [reflexivity|exact H]). eexists. split; [reflexivity|]. rewrite map_length, seq_length. reflexivity.
Qed.
Lemma times_length W n c s (rows : list (list W)) : n mod 2 = 0 -> (forall row, In row rows -> length row = n) ->
  length (flat_map (level_times n c) (seq s (length rows))) = length (flat_map (skipn (n / 2)) rows).
Proof.
  intros Hn. revert s. induction rows as [|row rows IH]; intros s HR; [reflexivity|]. cbn [length seq flat_map]. rewrite !app_length, level_times_length, skipn_length, (HR row (or_introl eq_refl)), (IH (S s)) by (intros; apply HR; right; assumption). lia.
Qed.
Lemma combine_map_l A B C (g : A -> B) (a : list A) (b : list C) : combine (map g a) b = map (fun p => (g (fst p), snd p)) (combine a b).
Proof. revert b. induction a as [|x a IH]; intros [|y b]; try reflexivity. cbn [map combine fst snd]. rewrite IH. reflexivity. Qed.
Lemma scaled_times n c s m : map (fun t => c * t) (flat_map (level_times n 1) (seq s m)) = flat_map (level_times n c) (seq s m).
Proof. rewrite map_flat_map, !flat_map_concat_map. f_equal. apply map_ext. intros l. unfold level_times. rewrite map_map. apply map_ext. intros k. lia. Qed.
Lemma fast_last n L : 2 <= n -> n mod 2 = 0 -> In ((n - 1) * 2 ^ L) (seq 0 n ++ flat_map (level_times n 1) (seq 1 L)).
Proof.
  intros H2 Hn. apply in_or_app. destruct L as [|L]; [left; apply in_seq; cbn [Nat.pow]; lia|]. right. apply in_flat_map. exists (S L). split; [apply in_seq; lia|].
  unfold level_times. apply in_map_iff. exists (n - 1). split; [lia|]. apply in_seq. lia.
Qed.
Lemma slow_first n c m : 2 <= n -> n mod 2 = 0 -> In (n / 2 * c) (flat_map (level_times n c) (seq 0 (S m))).
Proof.
  intros H2 Hn. apply in_flat_map. exists 0. split; [apply in_seq; lia|]. unfold level_times. apply in_map_iff. exists (n / 2). split; [cbn [Nat.pow]; lia|]. apply in_seq. lia.
Qed.
Lemma fast_max n L t : n mod 2 = 0 -> In t (seq 0 n ++ flat_map (level_times n 1) (seq 1 L)) -> t <= (n - 1) * 2 ^ L.
Proof.
  intros Hn H. apply in_app_or in H. destruct H as [H|H].
  - apply in_seq in H. pose proof (pow2_pos L). nia.
  - apply in_flat_map in H. destruct H as (l & Hl & H). apply in_seq in Hl. apply level_times_bounds in H; [|exact Hn|lia]. destruct H as [[_ H] _]. rewrite Nat.mul_1_l in H.
    etransitivity; [exact H|]. apply Nat.mul_le_mono_l, Nat.pow_le_mono_r; lia.
Qed.
Lemma slow_min n c m t : n mod 2 = 0 -> 0 < c -> In t (flat_map (level_times n c) (seq 0 m)) -> n / 2 * c <= t.
Proof.
  intros Hn Hc H. apply in_flat_map in H. destruct H as (l & Hl & H). apply level_times_bounds in H; [|exact Hn|exact Hc]. destruct H as [[H _] _].
  pose proof (@level_base_mono n c 0 l ltac:(lia)) as X. cbn [Nat.pow] in X. rewrite Nat.mul_1_r in X. lia.
Qed.
Lemma sorted_filter A (p : nat * A -> bool) l : StronglySorted lt (map fst l) -> StronglySorted lt (map fst (filter p l)).
Proof.
  induction l as [|x l IH]; intros H; [exact H|]. cbn [map] in H. inversion H as [|? ? H1 H2]; subst. cbn [filter]. destruct (p x); [|apply IH; exact H1]. cbn [map]. constructor; [apply IH; exact H1|].
  rewrite Forall_forall in *. intros t Ht. apply H2. apply in_map_iff in Ht. destruct Ht as (z & <- & Hz). apply filter_In in Hz. apply in_map. tauto.
Qed.
Lemma flat_map_map' A B C (f : A -> B) (g : B -> list C) l : flat_map g (map f l) = flat_map (fun x => g (f x)) l.
Proof. rewrite !flat_map_concat_map, map_map. reflexivity. Qed.
