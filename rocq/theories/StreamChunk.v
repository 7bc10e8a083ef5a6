(** What one chunk adds to a row of the streaming functions (the hypotheses of
    StreamLoop.v), in terms of the calls of ccorr and acorr. *)
From Verif Require Import Base Kernels PairSpec KernelProofs PairLemmas RegularProofs CoreModel FftModel CoreProofs CoreProofs2 CoreApi
  NormModel CorrModel CorrSpec CorrProofs CorrProofs2 PairAcc PairTuple MultiModel MultiSpec MultiProofs StreamModel CallPairs StreamBuffer StreamLoop.
From Coq Require Import String ZifyBool ZifyNat.
Open Scope string_scope.
Open Scope nat_scope.
Open Scope list_scope.
Local Notation length := List.length.
Set Implicit Arguments.

Lemma time_chunk_nth (S0 : setup) t c : (c + 1) * s_half S0 <= length t ->
  time_chunk S0 t c = map (fun k => nth k t 0%Z) (seq (c * s_half S0) (s_half S0)).
Proof.
  intros H. unfold time_chunk. rewrite (@slice_nth Z 0%Z t (fun k => nth (c * s_half S0 + k) t 0%Z) (c * s_half S0) (s_half S0)) by (auto; lia).
  rewrite <- (map_map (fun k => c * s_half S0 + k) (fun k => nth k t 0%Z)). f_equal.
  clear. generalize (c * s_half S0). intros a. assert (H : forall b, map (fun k => a + k) (seq b (s_half S0)) = seq (a + b) (s_half S0)).
  { induction (s_half S0) as [|h IH]; intros b; [reflexivity|]. cbn [seq map]. rewrite IH. do 2 f_equal. lia. }
  rewrite H, Nat.add_0_r. reflexivity.
Qed.

Section Chunk.
  Variable K : Fld.
  Notation C := (Cx K).
  Variable V : CMon.
  Variable W : nat -> Cx K.
  Variables complex cross : bool.
  Variable cc : bool -> list C -> list C -> option (list Z) -> option (list Z) -> option nat ->
    option Z -> option string -> option (list K) -> option (list K) -> option (cdata K V) -> res (cdata K V).
  Variable ac : bool -> list C -> option (list Z) -> option (list K) -> option nat ->
    option Z -> option string -> option (cdata K V) -> res (cdata K V).
  Variable aligned : nat -> bool.
  Variables rs rs_bg : nat -> bool.
  Variable S0 : setup.
  Variable norm : Z.
  Variables full auto_bg : bool.
  Variable X : nat -> C * C.
  Notation half := (s_half S0).
  Notation D := (s_decades S0).
  Notation nframes := (s_nframes S0).
  Notation m := (s_method S0).
  Notation diff := (String.eqb (s_method S0) "diff").
  Notation b := (s_binning S0).
  Hypothesis Hhalf : 0 < half.
  Hypothesis Hsingle : D = 0 -> nframes = half.
  Hypothesis Htimes1 : nframes <= length (s_t1 S0).
  Hypothesis Htimes2 : nframes <= length (s_t2 S0).

  (** The products that are summed and the cells they go to *)
  Variable prod : sample C * sample C -> V.
  Variables g1 g2 : sample C * sample C -> C.
  Variable lag : nat -> nat -> Z -> bool.
  Variable len : nat -> nat.
  (** the pairs across chunks of an auto-correlation may be lost *)
  Variable lost : bool.

  (** The number of delays of level [j], the time of block [k] of level [j] and its value
      with its square *)
  Definition delays (j : nat) : nat := if j =? 0 then s_fast S0 else s_level S0.
  Definition tau1 (j k : nat) : Z := if j =? 0 then nth k (s_t1 S0) 0%Z else Z.of_nat k.
  Definition tau2 (j k : nat) : Z := if j =? 0 then nth k (s_t2 S0) 0%Z else Z.of_nat k.
  Notation ch := (choice rs rs_bg S0 auto_bg).
  Definition val1 (j k : nat) : C * K :=
    (binned (cgrp K) b ch (fst_signal cross S0 auto_bg X) j k, binned (fgrp K) b ch (fst_square cross S0 auto_bg X) j k).
  Definition val2 (j k : nat) : C * K :=
    (binned (cgrp K) b ch (snd_signal cross S0 auto_bg X) j k, binned (fgrp K) b ch (snd_square cross S0 auto_bg X) j k).
  Notation vals v j c := (map (v j) (seq (c * half) half)).
  Notation times t j c := (map (t j) (seq (c * half) half)).
  Notation bufs := (buffers cross rs rs_bg S0 auto_bg X).

  (** [row j c]: all pairs of the first [c] chunks *)
  Definition acc (j c i : nat) : list (sample (C * K) * sample (C * K)) :=
    if cross then cross_acc (lag (delays j) i) (val1 j) (val2 j) (tau1 j) (tau2 j) half full c
    else auto_acc (lag (delays j) i) (val1 j) (tau1 j) half (full && negb lost) c.
  Definition row (j c : nat) : cdata K V := add_pairs prod g1 g2 (zeros K V diff cross norm (len (delays j))) (acc j c).

  Lemma row_shaped j c : shaped V diff cross norm (len (delays j)) (row j c).
  Proof. apply add_pairs_shaped, zeros_shaped. Qed.
  Lemma add_nothing (d : cdata K V) : add_pairs prod g1 g2 d (fun _ => []) = d.
  Proof.
    assert (H : forall (M : CMon) (q : list M), plus_cells M q (fun i => m0 M) = q) .
    { intros M q. apply list_nth_ext with (d := m0 M); [apply plus_cells_length|]. rewrite plus_cells_length. intros i Hi.
      rewrite nth_plus_cells by exact Hi. apply madd_0_r. }
    destruct d as [v c [sq|] [s1|] [s2|]|v c [s1|] [s2|]|]; cbn [add_pairs option_map]; f_equal; try apply H; try (f_equal; apply H);
      apply (H natmon).
  Qed.
  Lemma row_0 j : row j 0 = zeros K V diff cross norm (len (delays j)).
  Proof. unfold row, acc. destruct cross; apply add_nothing. Qed.

  (** ** The calls, as far as they are used *)
  Hypothesis Hcross : cross = true -> forall al v1 v2 t1 t2 n N d, okc W m v1 v2 t1 t2 N -> 0 < N -> shaped V diff true norm (len N) d ->
    cc al (map fst v1) (map fst v2) t1 t2 (Some n) (Some norm) (Some m) (sqarg K norm m (map snd v1)) (sqarg K norm m (map snd v2)) (Some d) =
    Ok (add_pairs prod g1 g2 d (fun i => sel (lag N i) (samples v1 t1) (samples v2 t2))).
  Hypothesis Hauto : cross = false -> forall al v t n d, oka W m v t n -> shaped V diff false norm (len n) d ->
    ac al (map fst v) t (sqarg K norm m (map snd v)) (Some n) (Some norm) (Some m) (Some d) =
    Ok (add_pairs prod g1 g2 d (fun i => usel (lag n i) (samples v t))).
  Hypothesis Hmerge : cross = false -> full = true -> forall j c al n, 0 < c -> (c + 1) * (half * 2 ^ j) <= nframes -> delays j <= n ->
    forall d, okc W m (vals val1 j c) (vals val1 j (c - 1)) (Some (times tau1 j c)) (Some (times tau1 j (c - 1))) n ->
    shaped V diff false norm (len (delays j)) d ->
    (let* o := cc al (map fst (vals val1 j c)) (map fst (vals val1 j (c - 1))) (Some (times tau1 j c)) (Some (times tau1 j (c - 1)))
                 (Some n) (Some norm) (Some m) (sqarg K norm m (map snd (vals val1 j c))) (sqarg K norm m (map snd (vals val1 j (c - 1)))) None in
     merge_auto V (delays j) d o) =
    Ok (add_pairs prod g1 g2 d (fun i => if lost then [] else sel (lag (delays j) i) (ser (val1 j) (tau1 j) (c * half) half) (ser (val1 j) (tau1 j) ((c - 1) * half) half))).
  Hypothesis Hinv : invariant false prod /\ invariant false g1 /\ (cross = true -> invariant false g2).

  (** The calls are admissible, at every level and for neighbouring chunks *)
  Hypothesis Hfast_le : s_level S0 <= s_fast S0.
  Hypothesis Hlevel_pos : 0 < s_level S0.
  Lemma delays_pos j : 0 < delays j.
  Proof. unfold delays. destruct (j =? 0); clear - Hfast_le Hlevel_pos; lia. Qed.
  Hypothesis Hok_cross : cross = true -> forall j c c', j < Nat.max D 1 -> (c + 1) * (half * 2 ^ j) <= nframes -> (c' + 1) * (half * 2 ^ j) <= nframes ->
    c' = c \/ (full = true /\ (c' = c + 1 \/ c = c' + 1)) ->
    okc W m (vals val1 j c) (vals val2 j c') (Some (times tau1 j c)) (Some (times tau2 j c')) (delays j).
  Hypothesis Hok_slow : cross = true -> forall j c, 0 < j < D -> (c + 1) * (half * 2 ^ j) <= nframes ->
    okc W m (vals val1 j c) (vals val2 j c) None None (delays j).
  Hypothesis Hok_auto : cross = false -> forall j c, j < Nat.max D 1 -> (c + 1) * (half * 2 ^ j) <= nframes ->
    oka W m (vals val1 j c) (if j =? 0 then Some (times tau1 j c) else None) (delays j).
  Hypothesis Hok_merge : cross = false -> full = true -> forall j c, j < Nat.max D 1 -> 0 < c -> (c + 1) * (half * 2 ^ j) <= nframes ->
    okc W m (vals val1 j c) (vals val1 j (c - 1)) (Some (times tau1 j c)) (Some (times tau1 j (c - 1))) (s_fast S0).

  (** ** Values in the buffers *)
  Lemma chunk_values j c (s : sstate K V) : j < Nat.max D 1 -> (c + 1) * (half * 2 ^ j) <= nframes -> bufs ((c + 1) * (half * 2 ^ j)) s ->
    @level_chunk S0 C (fdata1 s) j c = map fst (vals val1 j c) /\ @level_chunk S0 K (sq1 s) j c = map snd (vals val1 j c) /\
    (0 < c -> @level_prev S0 C (fdata1 s) j c = map fst (vals val1 j (c - 1)) /\ @level_prev S0 K (sq1 s) j c = map snd (vals val1 j (c - 1))) /\
    (cross = true -> @level_chunk S0 C (fdata2 s) j c = map fst (vals val2 j c) /\ @level_chunk S0 K (sq2 s) j c = map snd (vals val2 j c) /\
      (0 < c -> @level_prev S0 C (fdata2 s) j c = map fst (vals val2 j (c - 1)) /\ @level_prev S0 K (sq2 s) j c = map snd (vals val2 j (c - 1)))).
  Proof.
    clear Hcross Hauto Hmerge Hok_cross Hok_slow Hok_auto Hok_merge.
    intros Hj HN (B1 & B2 & B3 & B4). pose proof (pow_pos j) as HP.
    assert (HC : (if D =? 0 then half else 2 * half) = 2 * half \/ ((if D =? 0 then half else 2 * half) = half /\ c = 0)).
    { destruct (Nat.eq_dec D 0) as [E|E].
      - right. rewrite E. split; [reflexivity|]. rewrite (Hsingle E) in HN. clear - HN HP Hhalf. nia.
      - left. replace (D =? 0) with false by lia. reflexivity. }
    replace ((c + 1) * (half * 2 ^ j)) with ((c + 1) * half * 2 ^ j) in * by ring.
    assert (HG : forall (G : QGrp) (x : nat -> G) buf, holds G b ch x (Nat.max D 1) (if D =? 0 then half else 2 * half) ((c + 1) * half * 2 ^ j) buf ->
      level_chunk S0 buf j c = map (binned G b ch x j) (seq (c * half) half) /\
      (0 < c -> level_prev S0 buf j c = map (binned G b ch x j) (seq ((c - 1) * half) half))).
    { intros G x buf H. exact (@holds_chunk G b ch x _ _ half j c buf Hhalf Hj HC H). }
    destruct (HG (cgrp K) _ _ B1) as [E1 P1]. destruct (HG (fgrp K) _ _ B3) as [E3 P3].
    rewrite !map_map. cbn [fst snd val1 val2]. split; [exact E1|]. split; [exact E3|].
    split; [intros H0; rewrite ?map_map; cbn [fst snd val1]; split; [apply P1, H0|apply P3, H0]|].
    intros HX. destruct (HG (cgrp K) _ _ (B2 HX)) as [E2 P2]. destruct (HG (fgrp K) _ _ (B4 HX)) as [E4 P4].
    rewrite ?map_map. cbn [fst snd val1 val2]. split; [exact E2|]. split; [exact E4|].
    intros H0. rewrite ?map_map. cbn [fst snd val1 val2]. split; [apply P2, H0|apply P4, H0].
  Qed.

  Lemma time_chunk_arange n c : (c + 1) * half <= n -> time_chunk S0 (arange n) c = map Z.of_nat (seq (c * half) half).
  Proof.
    intros H. rewrite time_chunk_nth by (unfold arange; rewrite map_length, seq_length; exact H). apply map_ext_in. intros k Hk. apply in_seq in Hk.
    unfold arange. rewrite nth_indep with (d' := Z.of_nat 0) by (rewrite map_length, seq_length; lia). rewrite map_nth, seq_nth by lia. reflexivity.
  Qed.

  Lemma sq_arg_eq (q : list K) : (if (has_flag norm NORM_STRUCTURED && negb diff)%bool then Some q else None) = sqarg K norm m q.
  Proof. reflexivity. Qed.

  (** Chunk [c] of level [j]; [tw1], [tw2] are the times within the chunk, the same as
      [tau1], [tau2] but for a shift. *)
  Lemma chunk_row j c al tw1 tw2 n na (new1 new2 old1 old2 : list C) (qn1 qn2 qo1 qo2 : list K) :
    j < Nat.max D 1 -> (c + 1) * (half * 2 ^ j) <= nframes -> delays j <= na ->
    new1 = map fst (vals val1 j c) -> qn1 = map snd (vals val1 j c) ->
    (0 < c -> old1 = map fst (vals val1 j (c - 1)) /\ qo1 = map snd (vals val1 j (c - 1))) ->
    (cross = true -> new2 = map fst (vals val2 j c) /\ qn2 = map snd (vals val2 j c) /\
      (0 < c -> old2 = map fst (vals val2 j (c - 1)) /\ qo2 = map snd (vals val2 j (c - 1)))) ->
    (cross = true -> okc W m (vals val1 j c) (vals val2 j c) tw1 tw2 (delays j)) ->
    (cross = false -> n = delays j /\ oka W m (vals val1 j c) tw1 (delays j)) ->
    (cross = false -> full = true -> 0 < c -> okc W m (vals val1 j c) (vals val1 j (c - 1)) (Some (times tau1 j c)) (Some (times tau1 j (c - 1))) na) ->
    (exists u, samples (vals val1 j c) tw1 = map (shift_time u) (ser (val1 j) (tau1 j) (c * half) half) /\
      (cross = true -> samples (vals val2 j c) tw2 = map (shift_time u) (ser (val2 j) (tau2 j) (c * half) half))) ->
    chunk_update V cross cc ac S0 norm full al new1 new2 old1 old2 qn1 qn2 qo1 qo2 tw1 tw2
      (times tau1 j c) (times tau2 j c) (times tau1 j (c - 1)) (times tau2 j (c - 1)) n na (delays j) (0 <? c) (row j c) = Ok (row j (c + 1)).
  Proof.
    intros Hj HN Hna -> -> Hold Hsec Hw Hwa Hm (u & Hu1 & Hu2). pose proof (row_shaped j c) as HSh.
    assert (HPp : (c - 1 + 1) * (half * 2 ^ j) <= nframes \/ c = 0) by (clear - HN; destruct c; [right; reflexivity|left; cbn [Nat.sub Nat.add] in *; lia]).
    assert (EA : forall i, acc j (c + 1) i = acc j c i ++
      if cross then cross_step (lag (delays j) i) (val1 j) (val2 j) (tau1 j) (tau2 j) half full c
      else auto_step (lag (delays j) i) (val1 j) (tau1 j) half (full && negb lost) c).
    { intros i. unfold acc. replace (c + 1) with (S c) by lia. destruct cross; reflexivity. }
    assert (EF : forall Q, (forall i, i < len (delays j) -> same false (Q i)
        (if cross then cross_step (lag (delays j) i) (val1 j) (val2 j) (tau1 j) (tau2 j) half full c
         else auto_step (lag (delays j) i) (val1 j) (tau1 j) half (full && negb lost) c)) ->
        add_pairs prod g1 g2 (row j c) Q = row j (c + 1)).
    { intros Q HQ. unfold row. rewrite add_pairs_twice. destruct Hinv as (I1 & I2 & I3).
      apply (@add_pairs_same K V prod g1 g2 false diff cross norm (len (delays j))); auto; [apply zeros_shaped|].
      intros i Hi. rewrite EA. apply same_app; [apply same_refl|]. apply HQ, Hi. }
    assert (EW : forall q (x y : list (sample (C * K))), same false (sel q (map (shift_time u) x) (map (shift_time u) y)) (sel q x y)).
    { intros q x y. rewrite (@sel_map _ _ _ _ q (shift_time u) (shift_time u)).
      - apply same_shift.
      - intros p p'. unfold delay, map_pair, shift_time. cbn [fst snd]. lia. }
    assert (EU : forall q (x : list (sample (C * K))), same false (usel q (map (shift_time u) x)) (usel q x)).
    { intros q x. rewrite (@usel_map _ _ q (shift_time u)).
      - apply same_shift.
      - intros p p'. unfold delay, map_pair, shift_time. cbn [fst snd]. lia. }
    unfold chunk_update. rewrite ?sq_arg_eq.
    destruct cross eqn:HX.
    - destruct (Hsec eq_refl) as (-> & -> & Hold2).
      rewrite (@Hcross eq_refl al _ _ _ _ n (delays j)); [|apply Hw; reflexivity|apply delays_pos|exact HSh]. cbn [bind].
      destruct ((0 <? c) && full)%bool eqn:HO.
      + apply andb_true_iff in HO. destruct HO as [H0 HF]. apply Nat.ltb_lt in H0.
        destruct (Hold H0) as [-> ->]. destruct (Hold2 H0) as [-> ->].
        assert (HP' : (c - 1 + 1) * (half * 2 ^ j) <= nframes) by (destruct HPp; [assumption|lia]).
        rewrite (@Hcross eq_refl al _ _ _ _ na (delays j)); [|apply Hok_cross; auto; right; split; [exact HF|lia]|apply delays_pos|apply add_pairs_shaped; exact HSh]. cbn [bind].
        rewrite (@Hcross eq_refl al _ _ _ _ na (delays j)); [|apply Hok_cross; auto; right; split; [exact HF|lia]|apply delays_pos|do 2 apply add_pairs_shaped; exact HSh].
        f_equal. rewrite !add_pairs_twice. apply EF. intros i Hi. unfold cross_step.
        replace ((0 <? c) && full)%bool with true by (rewrite HF; replace (0 <? c) with true by lia; reflexivity).
        rewrite Hu1, (Hu2 eq_refl), !ser_samples, <- ?app_assoc. apply same_app; [apply EW|apply same_refl].
      + f_equal. apply EF. intros i Hi. unfold cross_step. rewrite HO, app_nil_r, Hu1, (Hu2 eq_refl). apply EW.
    - destruct (Hwa eq_refl) as [-> Hoka].
      rewrite (@Hauto eq_refl al _ _ _ _ Hoka); [|exact HSh]. cbn [bind].
      destruct ((0 <? c) && full)%bool eqn:HO.
      + apply andb_true_iff in HO. destruct HO as [H0 HF]. apply Nat.ltb_lt in H0.
        destruct (Hold H0) as [-> ->]. rewrite (@Hmerge eq_refl HF j c al na H0 HN Hna); [|apply Hm; auto|apply add_pairs_shaped; exact HSh].
        f_equal. rewrite add_pairs_twice. apply EF. intros i Hi. unfold auto_step.
        replace (0 <? c) with true by lia. rewrite HF, Hu1. cbn [andb]. apply same_app; [apply EU|]. destruct lost; apply same_refl.
      + f_equal. apply EF. intros i Hi. unfold auto_step.
        replace ((0 <? c) && (full && negb lost))%bool with false by (rewrite andb_assoc, HO; reflexivity).
        rewrite app_nil_r, Hu1. apply EU.
  Qed.

  Lemma shift_0 A (x : list (sample A)) : map (shift_time 0) x = x.
  Proof. rewrite <- (map_id x) at 2. apply map_ext. intros [a t]. unfold shift_time. cbn. f_equal. lia. Qed.

  Theorem fast_row c (s : sstate K V) : (c + 1) * half <= nframes -> bufs ((c + 1) * half) s -> data_fast s = row 0 c ->
    fast_update cross cc ac aligned S0 norm full c s = Ok (row 0 (c + 1)).
  Proof.
    intros HN HB HD. assert (HN' : (c + 1) * (half * 2 ^ 0) <= nframes) by (cbn [Nat.pow]; lia).
    replace ((c + 1) * half) with ((c + 1) * (half * 2 ^ 0)) in HB by (cbn [Nat.pow]; lia).
    destruct (@chunk_values 0 c s ltac:(lia) HN' HB) as (V1 & V2 & V3 & V4).
    unfold fast_update. rewrite HD.
    assert (ET : forall c', (c' + 1) * half <= nframes -> time_chunk S0 (s_t1 S0) c' = times tau1 0 c' /\ time_chunk S0 (s_t2 S0) c' = times tau2 0 c').
    { intros c' Hc. split; (rewrite time_chunk_nth by lia); reflexivity. }
    destruct (ET c HN) as [-> ->].
    destruct (ET (c - 1)) as [-> ->]; [clear - HN Hhalf; destruct c; cbn [Nat.sub Nat.add]; nia|].
    change (s_fast S0) with (delays 0).
    apply chunk_row; auto; try lia.
    - intros HX. apply (@Hok_cross HX 0 c c); [lia|exact HN'|exact HN'|left; reflexivity].
    - intros HX. split; [reflexivity|]. apply (@Hok_auto HX 0 c); [lia|exact HN'].
    - intros HX HF H0. apply (@Hok_merge HX HF 0 c); auto; lia.
    - exists 0%Z. rewrite !ser_samples, !shift_0. auto.
  Qed.

  Theorem slow_row j c (s : sstate K V) : 0 < j < D -> (c + 1) * (half * 2 ^ j) <= nframes -> bufs ((c + 1) * (half * 2 ^ j)) s ->
    (let t := arange nframes in
     chunk_update V cross cc ac S0 norm full (aligned j)
       (level_chunk S0 (fdata1 s) j c) (level_chunk S0 (fdata2 s) j c) (level_prev S0 (fdata1 s) j c) (level_prev S0 (fdata2 s) j c)
       (level_chunk S0 (sq1 s) j c) (level_chunk S0 (sq2 s) j c) (level_prev S0 (sq1 s) j c) (level_prev S0 (sq2 s) j c)
       None None (time_chunk S0 t c) (time_chunk S0 t c) (time_chunk S0 t (c - 1)) (time_chunk S0 t (c - 1))
       (s_level S0) (s_fast S0) (s_level S0) (0 <? c) (row j c)) = Ok (row j (c + 1)).
  Proof.
    intros Hj HN HB. cbv zeta. destruct (@chunk_values j c s ltac:(lia) HN HB) as (V1 & V2 & V3 & V4).
    assert (Ej : (j =? 0) = false) by lia. pose proof (pow_pos j) as HP.
    assert (HN' : (c + 1) * half <= nframes) by (clear - HN HP; nia).
    assert (ET : forall c', (c' + 1) * half <= nframes -> time_chunk S0 (arange nframes) c' = times tau1 j c' /\ time_chunk S0 (arange nframes) c' = times tau2 j c').
    { intros c' Hc. rewrite time_chunk_arange by exact Hc. unfold tau1, tau2. rewrite Ej. auto. }
    assert (HD : s_level S0 = delays j) by (unfold delays; rewrite Ej; reflexivity).
    assert (HC1 : (c - 1 + 1) * half <= nframes) by (clear - HN' Hhalf; destruct c; cbn [Nat.sub Nat.add] in *; nia).
    pose proof (ET c HN') as [E1 E2]. pose proof (ET (c - 1) HC1) as [E3 E4].
    match goal with |- chunk_update _ _ _ _ _ _ _ ?al ?x1 ?x2 ?x3 ?x4 ?x5 ?x6 ?x7 ?x8 _ _ _ _ _ _ _ _ _ _ _ = _ =>
      transitivity (chunk_update V cross cc ac S0 norm full al x1 x2 x3 x4 x5 x6 x7 x8 None None
        (times tau1 j c) (times tau2 j c) (times tau1 j (c - 1)) (times tau2 j (c - 1)) (delays j) (s_fast S0) (delays j) (0 <? c) (row j c)) end.
    { rewrite <- E1, <- E2, <- E3, <- E4, <- HD. reflexivity. }
    apply chunk_row; auto; try lia.
    - intros HX. split; [reflexivity|]. pose proof (@Hok_auto HX j c ltac:(lia) HN) as H. rewrite Ej in H. exact H.
    - intros HX HF H0. apply (@Hok_merge HX HF j c); auto; lia.
    - exists (Z.of_nat (c * half)). unfold tau1, tau2. rewrite Ej. split; [|intros _]; apply ser_regular.
  Qed.

  (** ** The whole run *)
  Variables rs_tail : nat -> bool.
  Variables e1 e2 : nat -> nat -> C.
  Variables es1 es2 : nat -> nat -> K.
  Variable ebg : C * C.
  Variable evar : K * K.
  Variable stats : bool.
  Hypothesis Hlen : forall n, (if (complex && cross)%bool then 2 * n - 1 else n) = len n.
  Hypothesis Hframes : exists n, nframes = n * half.
  Hypothesis Hnlevel : D <= s_nlevel S0 + 1.

  Lemma fast_0 : row 0 0 = init_row K V complex cross (negb diff) norm (s_fast S0).
  Proof. rewrite row_0, init_row_zeros, Hlen. reflexivity. Qed.
  Lemma slow_0 j : row (S j) 0 = init_row K V complex cross (negb diff) norm (s_level S0).
  Proof. rewrite row_0, init_row_zeros, Hlen. reflexivity. Qed.

  Notation loop := (stream_loop cross cc ac aligned rs rs_bg S0 norm full auto_bg stats).
  Notation init := (init_state V complex cross e1 e2 es1 es2 ebg evar S0 norm).
  Definition yields (c : nat) (y : yielded K V) : Prop := yield_at cross S0 auto_bg stats X row c y.

  Theorem run_ok frames : (forall k, k < length frames -> nth k frames (X 0) = X k) -> 0 < nframes -> nframes <= length frames ->
    exists s ys, loop frames 0 init = Ok (s, ys) /\ state_at complex cross rs rs_bg e1 e2 es1 es2 ebg evar S0 norm auto_bg stats X row nframes s /\
      length ys = nframes / half /\ forall c, c < length ys -> yields c (nth c ys ((DBad, []), ebg, evar)).
  Proof.
    intros HX HP HL.
    destruct (@loop_ok K V complex cross cc ac aligned rs rs_bg rs_tail e1 e2 es1 es2 ebg evar S0 norm full auto_bg stats X Hhalf Hsingle Hnlevel row
      fast_0 slow_0 fast_row slow_row frames 0 init) as (s & ys & E & HS & HLy & HY).
    - exact HX.
    - lia.
    - exact HL.
    - exact (@init_ok K V complex cross cc ac aligned rs rs_bg rs_tail e1 e2 es1 es2 ebg evar S0 norm full auto_bg stats X Hhalf Hsingle Hnlevel row fast_0 slow_0 fast_row slow_row).
    - rewrite Nat.div_0_l, Nat.sub_0_r in HLy by lia. exists s, ys. split; [exact E|]. split; [exact HS|]. split; [exact HLy|].
      intros c Hc. specialize (HY c Hc). rewrite Nat.div_0_l in HY by lia. exact HY.
  Qed.
  Theorem run_short frames : (forall k, k < length frames -> nth k frames (X 0) = X k) -> 1 < nframes -> length frames < nframes ->
    loop frames 0 init = Raise ValueError.
  Proof.
    intros HX HP HL.
    apply (@loop_short K V complex cross cc ac aligned rs rs_bg rs_tail e1 e2 es1 es2 ebg evar S0 norm full auto_bg stats X Hhalf Hsingle Hnlevel row
      fast_0 slow_0 fast_row slow_row frames 0 init HX); auto; try lia.
    exact (@init_ok K V complex cross cc ac aligned rs rs_bg rs_tail e1 e2 es1 es2 ebg evar S0 norm full auto_bg stats X Hhalf Hsingle Hnlevel row fast_0 slow_0 fast_row slow_row).
  Qed.

  (** The rest of the data, if the number of levels is not given *)
  Section Tail.
    Hypothesis Hmean : b = BINNING_MEAN.
    Hypothesis Hlast : nframes = half * 2 ^ D.
    Notation whole v j := (map (v j%nat) (seq 0 (nframes / 2 ^ j))).
    Hypothesis Hok_tail : cross = true -> forall j, Nat.max D 1 <= j <= s_nlevel S0 -> okc W m (whole val1 j) (whole val2 j) None None (delays j).
    Hypothesis Hok_tail_auto : cross = false -> forall j, Nat.max D 1 <= j <= s_nlevel S0 -> oka W m (whole val1 j) None (delays j).

    Definition all_pairs (j i : nat) : list (sample (C * K) * sample (C * K)) :=
      if cross then sel (lag (delays j) i) (samples (whole val1 j) None) (samples (whole val2 j) None)
      else usel (lag (delays j) i) (samples (whole val1 j) None).
    Definition tail_row (j : nat) : cdata K V := add_pairs prod g1 g2 (zeros K V diff cross norm (len (delays j))) (all_pairs j).

    Lemma whole_values j (x : nat -> C) (q : nat -> K) : map fst (map (fun k => (binned (cgrp K) b ch x j k, binned (fgrp K) b ch q j k)) (seq 0 (nframes / 2 ^ j))) =
        block_means (cgrp K) j (map x (seq 0 nframes)) /\
      map snd (map (fun k => (binned (cgrp K) b ch x j k, binned (fgrp K) b ch q j k)) (seq 0 (nframes / 2 ^ j))) =
        block_means (fgrp K) j (map q (seq 0 nframes)).
    Proof. rewrite !map_map. cbn [fst snd]. rewrite Hmean. split; apply binned_means. Qed.

    Theorem run_finish s : state_at complex cross rs rs_bg e1 e2 es1 es2 ebg evar S0 norm auto_bg stats X row nframes s -> 0 < nframes ->
      exists rows, finish cross cc ac aligned rs_tail S0 norm s = Ok (with_data s (data_fast s) rows) /\
        data_fast s = row 0 (nframes / half) /\ length rows = s_nlevel S0 /\
        (forall l, 0 < l < D -> nth (l - 1) rows DBad = row l (nframes / (half * 2 ^ l))) /\
        (forall l, Nat.max D 1 <= l <= s_nlevel S0 -> nth (l - 1) rows DBad = tail_row l) /\
        (stats = true -> total cross S0 auto_bg X nframes s).
    Proof.
      intros HS HP.
      apply (@finish_ok K V complex cross cc ac aligned rs rs_bg rs_tail e1 e2 es1 es2 ebg evar S0 norm full auto_bg stats X Hhalf Hframes Hsingle Hnlevel row
        fast_0 slow_0 fast_row slow_row Hmean); auto.
      - destruct D as [|d] eqn:E; [rewrite Hlast; cbn; lia|]. replace (S d =? 0) with false by lia.
        replace (Nat.max (S d) 1 - 1) with d by lia. rewrite Hlast. cbn [Nat.pow]. lia.
      - intros j f2 q2 Hj H2.
        destruct (whole_values j (fst_signal cross S0 auto_bg X) (fst_square cross S0 auto_bg X)) as [E1 E2].
        fold (val1 j) in E1, E2.
        assert (EJ : row j 0 = zeros K V diff cross norm (len (delays j))) by apply row_0.
        unfold tail_row, all_pairs. rewrite <- EJ. pose proof (row_shaped j 0) as HSh.
        rewrite <- E1, <- E2.
        assert (Hd : s_level S0 = delays j) by (unfold delays; replace (j =? 0) with false by lia; reflexivity). rewrite Hd.
        assert (G : forall T (c : bool) (A B : nat -> T), c = true -> (fun i => if c then A i else B i) = A) by (intros ? ? ? ? ->; reflexivity).
        assert (G' : forall T (c : bool) (A B : nat -> T), c = false -> (fun i => if c then A i else B i) = B) by (intros ? ? ? ? ->; reflexivity).
        destruct (Bool.bool_dec cross true) as [HX|HX].
        + destruct (H2 HX) as [-> ->].
          destruct (whole_values j (snd_signal cross S0 auto_bg X) (snd_square cross S0 auto_bg X)) as [E3 E4].
          rewrite <- E3, <- E4. fold (val2 j).
          match goal with |- (if cross then ?A else ?B) = ?R => transitivity A; [rewrite HX; reflexivity|] end.
          assert (HSh' := HSh). rewrite HX in HSh' at 1.
          etransitivity; [exact (@Hcross HX (aligned j) (whole val1 j) (whole val2 j) None None (delays j) (delays j) (row j 0) (Hok_tail HX Hj) (delays_pos j) HSh')|].
          do 2 f_equal. symmetry. apply (G _ cross _ _ HX).
        + apply Bool.not_true_is_false in HX.
          match goal with |- (if cross then ?A else ?B) = ?R => transitivity B; [rewrite HX; reflexivity|] end.
          assert (HSh' := HSh). rewrite HX in HSh' at 1.
          etransitivity; [exact (@Hauto HX (aligned j) (whole val1 j) None (delays j) (row j 0) (Hok_tail_auto HX Hj) HSh')|].
          do 2 f_equal. symmetry. apply (G' _ cross _ _ HX).
    Qed.
  End Tail.

End Chunk.

(** ** All pairs of the whole stream *)
Section Rows.
  Variable K : Fld.
  Notation C := (Cx K).
  Variable V : CMon.
  Variable cross : bool.
  Variables rs rs_bg : nat -> bool.
  Variable S0 : setup.
  Variable norm : Z.
  Variables full auto_bg : bool.
  Variable X : nat -> C * C.
  Notation half := (s_half S0).
  Notation diff := (String.eqb (s_method S0) "diff").
  Variable prod : sample C * sample C -> V.
  Variables g1 g2 : sample C * sample C -> C.
  Variable lag : nat -> nat -> Z -> bool.
  Variable len : nat -> nat.
  Variable lost : bool.
  Hypothesis Hinv : invariant false prod /\ invariant false g1 /\ (cross = true -> invariant false g2).
  Notation delays := (delays S0).
  Notation tau1 := (tau1 S0).
  Notation tau2 := (tau2 S0).
  Notation val1 := (val1 cross rs rs_bg S0 auto_bg X).
  Notation val2 := (val2 cross rs rs_bg S0 auto_bg X).
  Notation row := (row V cross rs rs_bg S0 norm full auto_bg X prod g1 g2 lag len lost).
  Theorem row_full j c : (cross = true \/ lost = false) -> full = true ->
    (forall i, i < len (delays j) -> separated (lag (delays j) i) (tau1 j) (if cross then tau2 j else tau1 j) half c) ->
    (cross = false -> invariant true prod /\ invariant true g1) -> (cross = false -> forall n i d, lag n i (- d)%Z = lag n i d) ->
    row j c = add_pairs prod g1 g2 (zeros K V diff cross norm (len (delays j)))
      (fun i => if cross then sel (lag (delays j) i) (ser (val1 j) (tau1 j) 0 (c * half)) (ser (val2 j) (tau2 j) 0 (c * half))
                else usel (lag (delays j) i) (ser (val1 j) (tau1 j) 0 (c * half))).
  Proof.
    intros Hl Hf HS HI HE. unfold row. destruct Hinv as (I1 & I2 & I3).
    destruct cross eqn:HX.
    - apply (@add_pairs_same K V prod g1 g2 false diff true norm (len (delays j))); auto; [apply zeros_shaped|].
      intros i Hi. unfold acc. rewrite Hf. apply cross_acc_full. apply HS, Hi.
    - destruct (HI eq_refl) as [I1' I2'].
      apply (@add_pairs_same K V prod g1 g2 true diff false norm (len (delays j))); auto; [apply zeros_shaped|discriminate|].
      intros i Hi. unfold acc. rewrite Hf. destruct Hl as [Hl|Hl]; [discriminate|]. rewrite Hl. cbn [andb negb].
      apply auto_acc_full; [apply HE; reflexivity|]. apply HS, Hi.
  Qed.
  (** Without the pairs across chunks: the sum over all chunks *)
  Theorem row_chunks j c : full = false \/ (cross = false /\ lost = true) ->
    row j c = add_pairs prod g1 g2 (zeros K V diff cross norm (len (delays j)))
      (fun i => flat_map (fun k => if cross then sel (lag (delays j) i) (ser (val1 j) (tau1 j) (k * half) half) (ser (val2 j) (tau2 j) (k * half) half)
                else usel (lag (delays j) i) (ser (val1 j) (tau1 j) (k * half) half)) (seq 0 c)).
  Proof.
    intros Hf. unfold row. destruct Hinv as (I1 & I2 & I3).
    apply (@add_pairs_same K V prod g1 g2 false diff cross norm (len (delays j))); auto; [apply zeros_shaped|].
    intros i Hi. unfold acc. destruct cross eqn:HX.
    - destruct Hf as [->|[Hf _]]; [|discriminate]. apply cross_acc_chunk.
    - replace (full && negb lost)%bool with false by (destruct Hf as [->|[_ ->]]; [|rewrite andb_false_r]; reflexivity). apply auto_acc_chunk.
  Qed.
End Rows.
