(** A complete run of the streaming functions, for any correlation functions that add
    the pairs of their arguments to the output array. *)
From Verif Require Import Base Kernels PairSpec KernelProofs PairLemmas RegularProofs CoreModel FftModel FftProofs CoreProofs CoreProofs2 CoreApi
  NormModel CorrModel CorrSpec CorrProofs CorrProofs2 PairAcc PairTuple MultiModel MultiSpec MultiProofs StreamModel CallPairs StreamBuffer StreamLoop StreamChunk StreamSpec StreamFits.
From Coq Require Import String ZifyBool ZifyNat.
Open Scope string_scope.
Open Scope nat_scope.
Open Scope list_scope.
Local Notation length := List.length.
Set Implicit Arguments.

Section Iter.
  Variable K : Fld.
  Notation C := (Cx K).
  Variable V : CMon.
  Variable W : nat -> Cx K.
  Variables complex cross : bool.
  Variable cc : bool -> list C -> list C -> option (list Z) -> option (list Z) -> option nat ->
    option Z -> option string -> option (list K) -> option (list K) -> option (cdata K V) -> res (cdata K V).
  Variable ac : bool -> list C -> option (list Z) -> option (list K) -> option nat ->
    option Z -> option string -> option (cdata K V) -> res (cdata K V).
  Variable w : world K.
  Variable S0 : setup.
  Variable norm : Z.
  Variables full auto_bg stats : bool.
  Notation half := (s_half S0).
  Notation D := (s_decades S0).
  Notation nframes := (s_nframes S0).
  Notation m := (s_method S0).
  Notation T1 := (s_t1 S0).
  Notation T2 := (s_t2 S0).
  Notation diff := (String.eqb (s_method S0) "diff").
  Variable prod : sample C * sample C -> V.
  Variables g1 g2 : sample C * sample C -> C.
  Variable lag : nat -> nat -> Z -> bool.
  Variable len : nat -> nat.
  Variable lost : bool.

  (** ** The calls *)
  Hypothesis Hcross : cross = true -> forall al v1 v2 t1 t2 n N d, okc W m v1 v2 t1 t2 N -> 0 < N -> shaped V diff true norm (len N) d ->
    cc al (map fst v1) (map fst v2) t1 t2 (Some n) (Some norm) (Some m) (sqarg K norm m (map snd v1)) (sqarg K norm m (map snd v2)) (Some d) =
    Ok (add_pairs prod g1 g2 d (fun i => sel (lag N i) (samples v1 t1) (samples v2 t2))).
  Hypothesis Hauto : cross = false -> forall al v t n d, oka W m v t n -> shaped V diff false norm (len n) d ->
    ac al (map fst v) t (sqarg K norm m (map snd v)) (Some n) (Some norm) (Some m) (Some d) =
    Ok (add_pairs prod g1 g2 d (fun i => usel (lag n i) (samples v t))).
  Hypothesis Hmerge : cross = false -> full = true -> forall al v1 v2 t1 t2 n crop d, okc W m v1 v2 (Some t1) (Some t2) n ->
    (lost = true -> forall a b, In a t1 -> In b t2 -> (b < a)%Z) -> 0 < crop <= n -> shaped V diff false norm (len crop) d ->
    (let* o := cc al (map fst v1) (map fst v2) (Some t1) (Some t2) (Some n) (Some norm) (Some m) (sqarg K norm m (map snd v1)) (sqarg K norm m (map snd v2)) None in
     merge_auto V crop d o) =
    Ok (add_pairs prod g1 g2 d (fun i => if lost then [] else sel (lag crop i) (samples v1 (Some t1)) (samples v2 (Some t2)))).
  Hypothesis Hinv : invariant false prod /\ invariant false g1 /\ (cross = true -> invariant false g2).
  Hypothesis Hlen : forall n, (if (complex && cross)%bool then 2 * n - 1 else n) = len n.

  (** ** The setup *)
  Hypothesis Hlevel : 0 < s_level S0 <= half.
  Hypothesis Hfast : s_level S0 <= s_fast S0.
  Hypothesis Htimes1 : nframes <= length T1.
  Hypothesis Htimes2 : nframes <= length T2.
  Hypothesis Hsingle : D = 0 -> nframes = half.
  Hypothesis Hframes : exists n, nframes = n * half.
  Hypothesis Hpos : 0 < nframes.
  Hypothesis Hnlevel : D <= s_nlevel S0 + 1.

  (** ** The times *)
  Hypothesis Hfit : cross = true -> forall c c', (c + 1) * half <= nframes -> (c' + 1) * half <= nframes ->
    c' = c \/ (full = true /\ (c' = c + 1 \/ c = c' + 1)) -> call_fits W m (chunk_times half c T1) (chunk_times half c' T2) (s_fast S0).
  Hypothesis Hfit_auto : cross = false -> forall c, (c + 1) * half <= nframes -> NoDup (chunk_times half c T1) /\
    call_fits W m (chunk_times half c T1) (chunk_times half c T1) (s_fast S0) /\
    (full = true -> 0 < c -> call_fits W m (chunk_times half c T1) (chunk_times half (c - 1) T1) (s_fast S0)).
  Hypothesis Hincr : lost = true -> forall a b, a < b -> b < nframes -> (nth a T1 0 < nth b T1 0)%Z.
  Hypothesis Hroots : 0 < s_nlevel S0 -> m = "corr" \/ m = "diff" \/ (m = "fft" /\ all_roots W).
  Hypothesis Hfast_slow : cross = false -> full = true -> 1 < D -> m = "fft" -> s_fast S0 <= half + 1.

  Variable X : nat -> C * C.
  Notation rs := (w_rs w).
  Notation rs_bg := (w_rs_bg w).
  Notation value1 := (val1 cross rs rs_bg S0 auto_bg X).
  Notation value2 := (val2 cross rs rs_bg S0 auto_bg X).
  Notation time1 := (tau1 S0).
  Notation time2 := (tau2 S0).
  Notation vals v j c := (map (v j) (seq (c * half) half)).
  Definition srow : nat -> nat -> cdata K V := row V cross rs rs_bg S0 norm full auto_bg X prod g1 g2 lag len lost.

  Let Hhalf : 0 < half.
  Proof. lia. Qed.

  Lemma level0_times c : (c + 1) * half <= nframes ->
    vals time1 0 c = chunk_times half c T1 /\ vals time2 0 c = chunk_times half c T2.
  Proof.
    intros H. unfold chunk_times. change (firstn half (skipn (c * half) T1)) with (time_chunk S0 T1 c).
    change (firstn half (skipn (c * half) T2)) with (time_chunk S0 T2 c). rewrite !time_chunk_nth by lia. split; reflexivity.
  Qed.
  Lemma level_times j c : 0 < j -> vals time1 j c = map Z.of_nat (seq (c * half) half) /\ vals time2 j c = map Z.of_nat (seq (c * half) half).
  Proof. intros H. unfold tau1, tau2. replace (j =? 0) with false by lia. auto. Qed.
  Lemma nonempty A (v : nat -> A) c : map v (seq (c * half) half) <> [].
  Proof. destruct half; [lia|discriminate]. Qed.
  Lemma vlen A B (v : nat -> A) (u : nat -> B) c c' : length (map v (seq (c * half) half)) = length (map u (seq (c' * half) half)).
  Proof. rewrite !map_length, !seq_length. reflexivity. Qed.
  Lemma pow_chunk j c : (c + 1) * (half * 2 ^ j) <= nframes -> (c + 1) * half <= nframes.
  Proof. pose proof (pow_pos j). nia. Qed.

  Lemma ok_cross : cross = true -> forall j c c', j < Nat.max D 1 -> (c + 1) * (half * 2 ^ j) <= nframes -> (c' + 1) * (half * 2 ^ j) <= nframes ->
    c' = c \/ (full = true /\ (c' = c + 1 \/ c = c' + 1)) ->
    okc W m (vals value1 j c) (vals value2 j c') (Some (vals time1 j c)) (Some (vals time2 j c')) (delays S0 j).
  Proof.
    intros HX j c c' Hj Hc Hc' HN. apply pow_chunk in Hc. apply pow_chunk in Hc'.
    apply okc_times; try apply vlen; [apply nonempty|]. destruct (Nat.eq_dec j 0) as [->|Hj0].
    - destruct (level0_times c Hc) as [-> _]. destruct (level0_times c' Hc') as [_ ->]. apply Hfit; auto.
    - destruct (@level_times j c ltac:(lia)) as [-> _]. destruct (@level_times j c' ltac:(lia)) as [_ ->].
      destruct (Hroots ltac:(lia)) as [->|[->|[-> HR]]]; [left; reflexivity|right; left; reflexivity|right; right; split; [reflexivity|]].
      apply regular_fits; auto; try lia. unfold delays. replace (j =? 0) with false by lia. lia.
  Qed.
  Lemma ok_slow : cross = true -> forall j c, 0 < j < D -> (c + 1) * (half * 2 ^ j) <= nframes ->
    okc W m (vals value1 j c) (vals value2 j c) None None (delays S0 j).
  Proof.
    intros HX j c Hj Hc. apply okc_none; [apply vlen|apply nonempty| |apply Hroots; lia].
    rewrite map_length, seq_length. unfold delays. replace (j =? 0) with false by lia. lia.
  Qed.
  Lemma ok_auto : cross = false -> forall j c, j < Nat.max D 1 -> (c + 1) * (half * 2 ^ j) <= nframes ->
    oka W m (vals value1 j c) (if j =? 0 then Some (vals time1 j c) else None) (delays S0 j).
  Proof.
    intros HX j c Hj Hc. apply pow_chunk in Hc. destruct (Nat.eq_dec j 0) as [->|Hj0].
    - cbn [Nat.eqb]. destruct (Hfit_auto HX c Hc) as (HD & HF & _). apply oka_times; [apply vlen|apply nonempty| |];
        destruct (level0_times c Hc) as [-> _]; assumption.
    - replace (j =? 0) with false by lia. apply oka_none; [apply nonempty| |apply Hroots; lia].
      rewrite map_length, seq_length. unfold delays. replace (j =? 0) with false by lia. lia.
  Qed.
  Lemma ok_merge : cross = false -> full = true -> forall j c, j < Nat.max D 1 -> 0 < c -> (c + 1) * (half * 2 ^ j) <= nframes ->
    okc W m (vals value1 j c) (vals value1 j (c - 1)) (Some (vals time1 j c)) (Some (vals time1 j (c - 1))) (s_fast S0).
  Proof.
    intros HX HF j c Hj H0 Hc. apply pow_chunk in Hc. apply okc_times; try apply vlen; [apply nonempty|]. destruct (Nat.eq_dec j 0) as [->|Hj0].
    - destruct (level0_times c Hc) as [-> _]. destruct (level0_times (c - 1)) as [-> _]; [clear - Hc Hhalf; nia|]. apply Hfit_auto; auto.
    - destruct (@level_times j c ltac:(lia)) as [-> _]. destruct (@level_times j (c - 1) ltac:(lia)) as [-> _].
      destruct (Hroots ltac:(lia)) as [E|[E|[E HR]]]; [left; exact E|right; left; exact E|right; right; split; [exact E|]].
      apply regular_fits; auto; lia.
  Qed.
  Lemma merge : cross = false -> full = true -> forall j c al n, 0 < c -> (c + 1) * (half * 2 ^ j) <= nframes -> delays S0 j <= n ->
    forall d, okc W m (vals value1 j c) (vals value1 j (c - 1)) (Some (vals time1 j c)) (Some (vals time1 j (c - 1))) n ->
    shaped V diff false norm (len (delays S0 j)) d ->
    (let* o := cc al (map fst (vals value1 j c)) (map fst (vals value1 j (c - 1))) (Some (vals time1 j c)) (Some (vals time1 j (c - 1)))
                 (Some n) (Some norm) (Some m) (sqarg K norm m (map snd (vals value1 j c))) (sqarg K norm m (map snd (vals value1 j (c - 1)))) None in
     merge_auto V (delays S0 j) d o) =
    Ok (add_pairs prod g1 g2 d (fun i => if lost then [] else sel (lag (delays S0 j) i) (ser (value1 j) (time1 j) (c * half) half) (ser (value1 j) (time1 j) ((c - 1) * half) half))).
  Proof.
    intros HX HF j c al n H0 Hc Hn d Hok Hsh. apply pow_chunk in Hc.
    rewrite (@Hmerge HX HF al _ _ _ _ n (delays S0 j) d Hok); [| |split; [apply delays_pos; [exact Hfast|lia]|exact Hn]|exact Hsh].
    - rewrite !ser_samples. reflexivity.
    - intros HL a b Ha Hb. apply in_map_iff in Ha. apply in_map_iff in Hb. destruct Ha as (x & <- & Hx), Hb as (y & <- & Hy).
      apply in_seq in Hx. apply in_seq in Hy. assert (Hyx : y < x) by (clear - Hx Hy H0 Hhalf; nia). unfold tau1. destruct (j =? 0); [|lia].
      apply (Hincr HL); [exact Hyx|]. clear - Hx Hc. nia.
  Qed.

  Notation runs := (stream_loop cross cc ac (w_aligned w) rs rs_bg S0 norm full auto_bg stats).
  Notation init := (init_state V complex cross (w_e1 w) (w_e2 w) (w_es1 w) (w_es2 w) (w_bg w) (w_var w) S0 norm).
  Notation at_end := (state_at complex cross rs rs_bg (w_e1 w) (w_e2 w) (w_es1 w) (w_es2 w) (w_bg w) (w_var w) S0 norm auto_bg stats X srow nframes).
  Definition yields_at : nat -> yielded K V -> Prop := yields (V := V) cross rs rs_bg S0 norm full auto_bg X prod g1 g2 lag len lost stats.

  Theorem loop_run frames : (forall k, k < length frames -> nth k frames (X 0) = X k) -> nframes <= length frames ->
    exists s ys, runs frames 0 init = Ok (s, ys) /\ at_end s /\
      length ys = nframes / half /\ forall c, c < length ys -> yields_at c (nth c ys ((DBad, []), w_bg w, w_var w)).
  Proof.
    intros HX HL.
    exact (@run_ok K V W complex cross cc ac (w_aligned w) rs rs_bg S0 norm full auto_bg X Hhalf Hsingle Htimes1 Htimes2 prod g1 g2 lag len lost
      Hcross Hauto merge Hinv Hfast (proj1 Hlevel) ok_cross ok_slow ok_auto ok_merge (w_rs_tail w) (w_e1 w) (w_e2 w) (w_es1 w) (w_es2 w) (w_bg w) (w_var w) stats
      Hlen Hnlevel frames HX Hpos HL).
  Qed.
  Theorem loop_run_short frames : (forall k, k < length frames -> nth k frames (X 0) = X k) -> 1 < nframes -> length frames < nframes ->
    runs frames 0 init = Raise ValueError.
  Proof.
    intros HX H1 HL.
    exact (@run_short K V W complex cross cc ac (w_aligned w) rs rs_bg S0 norm full auto_bg X Hhalf Hsingle Htimes1 Htimes2 prod g1 g2 lag len lost
      Hcross Hauto merge Hinv Hfast (proj1 Hlevel) ok_cross ok_slow ok_auto ok_merge (w_rs_tail w) (w_e1 w) (w_e2 w) (w_es1 w) (w_es2 w) (w_bg w) (w_var w) stats
      Hlen Hnlevel frames HX H1 HL).
  Qed.
  Notation fin := (finish cross cc ac (w_aligned w) (w_rs_tail w) S0 norm).

  (** Without a rest *)
  Theorem end_none s : at_end s -> s_nlevel S0 + 1 = Nat.max D 1 ->
    fin s = Ok s /\ data_fast s = srow 0 (nframes / half) /\ length (data_slow s) = s_nlevel S0 /\
    (forall l, 0 < l < D -> nth (l - 1) (data_slow s) DBad = srow l (nframes / (half * 2 ^ l))) /\
    (stats = true -> statistics cross S0 auto_bg X nframes (out_bg s) (out_var s)).
  Proof.
    intros HS HE. split; [|].
    - unfold finish. rewrite HE, Nat.sub_diag. cbn [tail_update bind]. destruct s; reflexivity.
    - unfold state_at in HS. destruct Hframes as [n En].
      assert (H1 : (auto_bg && (nframes <? half))%bool = false).
      { destruct auto_bg; [|reflexivity]. cbn [andb]. apply Nat.ltb_ge. rewrite En. clear - En Hpos Hhalf. destruct n; [lia|nia]. }
      rewrite H1 in HS. destruct HS as [_ (E1 & (L1 & L2 & _) & _ & ST)]. split; [exact E1|]. split; [exact L1|]. split; [exact L2|].
      intros Hs. destruct (ST Hs) as [HT _]. rewrite En, Nat.div_mul in HT by lia. rewrite <- En in HT. apply HT, Hpos.
  Qed.
  (** With the rest of a run over all levels *)
  Notation whole v j := (map (v j%nat) (seq 0 (nframes / 2 ^ j))).
  Definition srest : nat -> cdata K V := tail_row V cross rs rs_bg S0 norm auto_bg X prod g1 g2 lag len.
  Theorem end_rest s : at_end s -> s_binning S0 = BINNING_MEAN -> nframes = half * 2 ^ D ->
    (forall j, j <= s_nlevel S0 -> s_level S0 <= nframes / 2 ^ j) ->
    exists rows, fin s = Ok (with_data s (data_fast s) rows) /\
      data_fast s = srow 0 (nframes / half) /\ length rows = s_nlevel S0 /\
      (forall l, 0 < l < D -> nth (l - 1) rows DBad = srow l (nframes / (half * 2 ^ l))) /\
      (forall l, Nat.max D 1 <= l <= s_nlevel S0 -> nth (l - 1) rows DBad = srest l) /\
      (stats = true -> statistics cross S0 auto_bg X nframes (out_bg s) (out_var s)).
  Proof.
    intros HS HB HD HT.
    assert (HW : forall A (v : nat -> A) j, j <= s_nlevel S0 -> map v (seq 0 (nframes / 2 ^ j)) <> []).
    { intros A v j Hj. specialize (HT j Hj). destruct (nframes / 2 ^ j); [lia|discriminate]. }
    assert (HL : forall A (v : nat -> A) j, Nat.max D 1 <= j <= s_nlevel S0 -> 0 < delays S0 j <= length (map v (seq 0 (nframes / 2 ^ j))) + 1).
    { intros A v j Hj. rewrite map_length, seq_length. unfold delays. replace (j =? 0) with false by lia. specialize (HT j ltac:(lia)). lia. }
    destruct (@run_finish K V W complex cross cc ac (w_aligned w) rs rs_bg S0 norm full auto_bg X Hhalf Hsingle Htimes1 Htimes2 prod g1 g2 lag len lost
      Hcross Hauto merge Hinv Hfast (proj1 Hlevel) ok_cross ok_slow ok_auto ok_merge (w_rs_tail w) (w_e1 w) (w_e2 w) (w_es1 w) (w_es2 w) (w_bg w) (w_var w) stats
      Hlen Hframes Hnlevel HB HD) with (s := s) as (rows & R1 & R2 & R3 & R4 & R5 & R6).
    - intros HX j Hj. apply okc_none; [rewrite !map_length; reflexivity|apply HW; lia|apply HL, Hj|apply Hroots; lia].
    - intros HX j Hj. apply oka_none; [apply HW; lia|apply HL, Hj|apply Hroots; lia].
    - exact HS.
    - exact Hpos.
    - exists rows. split; [exact R1|]. split; [exact R2|]. split; [exact R3|]. split; [exact R4|]. split; [exact R5|].
      intros Hs. apply (proj1 (R6 Hs)), Hpos.
  Qed.
End Iter.
