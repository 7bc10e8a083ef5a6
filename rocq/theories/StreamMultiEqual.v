(** The slow levels of iccorr_multi and iacorr_multi, and those of ccorr_multi and acorr_multi. *)
From Verif Require Import Base Kernels PairSpec KernelProofs PairLemmas RegularProofs CoreModel FftModel FftProofs CoreProofs CoreProofs2 CoreProofs3 CoreApi
  NormModel CorrModel CorrSpec CorrProofs CorrProofs2 PairAcc PairTuple MultiModel MultiSpec MultiProofs MultiLevels StreamModel CallPairs CallFresh StreamBuffer StreamLoop StreamChunk StreamSpec StreamSetup StreamFits StreamIter StreamSingle StreamInst StreamEqual StreamParts StreamMain StreamMulti StreamMultiMain StreamRegular.
From Coq Require Import String ZifyBool ZifyNat.
Open Scope string_scope.
Open Scope nat_scope.
Open Scope list_scope.
Local Notation length := List.length.
Set Implicit Arguments.

Lemma top_level_unique nf level L : 0 < level <= nf -> level <= nf / 2 ^ L -> nf / 2 ^ S L < level -> top_level nf level = L.
Proof.
  intros H H1 H2. apply (top_level_spec H) in H1. assert (H3 : ~ S L <= top_level nf level) by (rewrite (top_level_spec H); lia). lia.
Qed.
Lemma signal_length K auto h n (f : list (Cx K)) : n <= length f -> length (stream_signal auto h n f) = n.
Proof. intros H. unfold stream_signal. destruct auto; rewrite ?map_length, firstn_length; lia. Qed.
Lemma sel_same_pos A (v1 v2 : list A) n : 0 < n -> length v1 = n -> length v2 = n -> 0 < length (sel (lag_real 0) (samples v1 None) (samples v2 None)).
Proof.
  intros Hn H1 H2. destruct v1 as [|x v1], v2 as [|y v2]; cbn in H1, H2; try lia. unfold samples, regular, sel. cbn [length seq map combine].
  apply filter_pos with (x := ((x, 0%Z), (y, 0%Z))); [|reflexivity]. apply in_prod; left; reflexivity.
Qed.
Lemma usel_same_pos A (v : list A) n : 0 < n -> length v = n -> 0 < length (usel (lag_real 0) (samples v None)).
Proof.
  intros Hn H1. destruct v as [|x v]; cbn in H1; try lia. unfold samples, regular, usel. cbn [length seq map combine].
  apply filter_pos with (x := ((x, 0%Z), (x, 0%Z))); [|reflexivity]. cbn. left. reflexivity.
Qed.

Section Equal.
  Variable K : Fld.
  Notation C := (Cx K).
  Variable W : nat -> Cx K.
  Variable w : world K.
  Variables (t1 t2 : option (list Z)) (level period : nat) (chunk_size count len : option nat) (method : option string) (binning nlevel : option Z).
  Variables (T1 T2 : list Z) (total h D : nat) (m : string) (norm : option Z) (nm : Z) (auto stats : bool).
  Hypothesis Hargs : stream_args t1 t2 level chunk_size count len T1 T2 total h D.
  Hypothesis Hmethod : _default_method_and_binning method binning = Ok (m, BINNING_MEAN).
  Hypothesis Hperiod : 0 < period.
  Hypothesis Hnlevel : nlevel_ok nlevel.
  Hypothesis Hfit : method_fits W m T1 T2 h (h * 2 ^ D) (period * level).
  Hypothesis Hroots : m = "fft" -> all_roots W.
  Notation nf := (h * 2 ^ D).
  Notation sig := (stream_signal auto h nf).
  Lemma level_bounds : 0 < level <= nf.
  Proof. destruct Hargs as (_ & _ & _ & _ & _ & Hn & _). pose proof (pow_pos D). nia. Qed.

  Section Cross.
    Variable frames : list (C * C).
    Hypothesis Hgiven : given t1 = given t2.
    Hypothesis Hnorm : _default_norm norm m true = Ok nm.
    Hypothesis Hlen : nf <= length frames.
    Notation stream := (iccorr_multi W w frames t1 t2 (Some level) norm method count len period binning nlevel chunk_size auto "full" stats).
    Notation memory al rs u1 u2 p := (ccorr_multi W al rs (sig (map fst frames)) (sig (map snd frames)) u1 u2 p level binning nlevel norm method).
    Lemma sig1_len : length (sig (map fst frames)) = nf.
    Proof. apply signal_length. rewrite map_length. exact Hlen. Qed.

    Theorem cross_levels_equal : nlevel = None -> exists fast slow b v, stream = Ok ((fast, slow), b, v) /\
      forall al rs u1 u2 p fast' slow', memory al rs u1 u2 p = Ok (fast', slow') -> slow' = slow.
    Proof.
      intros HX. destruct (@iccorr_multi_levels K W w t1 t2 level period chunk_size count len method binning nlevel "full" T1 T2 total h D m BINNING_MEAN norm nm auto stats
        Hargs Hmethod (or_introl eq_refl) Hperiod Hnlevel (or_introl eq_refl) Hfit Hroots frames Hgiven Hnorm Hlen eq_refl) as (fast & slow & b & v & E & HL & HC & _).
      exists fast, slow, b, v. split; [exact E|]. intros al rs u1 u2 p fast' slow' HM.
      assert (EL : length slow' = length slow).
      { rewrite HL, HX. cbn [last_level]. pose proof HM as HM'. rewrite HX in HM'. apply multi_cross_nlevel in HM'. rewrite sig1_len in HM'.
        destruct HM' as (A & B & C'). symmetry. apply top_level_unique; [lia|exact B|exact C']. }
      apply list_nth_ext with (d := DBad); [exact EL|]. intros l Hl.
      pose proof (@multi_cross_levels K (fmon K) (f0 K) false (ccorr W) al rs BINNING_MEAN block_means block_means_0 mean_levels _ _ _ _ _ _ _ _ _ _ _ _ _ _ HM Hmethod Hnorm l Hl) as HS.
      specialize (HC (S l) ltac:(lia) (or_introl HX) (al (S l))). unfold level_call in HC.
      replace (S l - 1) with l in HC by lia. unfold stream_blocks in HC. cbn [Z.eqb BINNING_MEAN Pos.eqb] in HC.
      match type of HS with ?A = _ => assert (HC' : A = Ok (nth l slow DBad)) by exact HC end.
      assert (EQ := eq_trans (eq_sym HS) HC'). injection EQ as EQ. exact EQ.
    Qed.

    (** A level that is lost: its blocks are fewer than one chunk. *)
    Theorem cross_levels_lost : nlevel <> None -> exists fast slow b v, stream = Ok ((fast, slow), b, v) /\
      forall l, 0 < l <= length slow -> D < l -> data_count (fmon K) (nth (l - 1) slow DBad) = repeat 0 level /\
        forall al rs u1 u2 p fast' slow', memory al rs u1 u2 p = Ok (fast', slow') -> l <= length slow' ->
          0 < nth 0 (data_count (fmon K) (nth (l - 1) slow' DBad)) 0.
    Proof.
      intros HX. destruct (@iccorr_multi_levels K W w t1 t2 level period chunk_size count len method binning nlevel "full" T1 T2 total h D m BINNING_MEAN norm nm auto stats
        Hargs Hmethod (or_introl eq_refl) Hperiod Hnlevel (or_introl eq_refl) Hfit Hroots frames Hgiven Hnorm Hlen eq_refl) as (fast & slow & b & v & E & HL & _ & HZ).
      exists fast, slow, b, v. split; [exact E|]. intros l Hl HD. split.
      - rewrite (HZ l Hl HX HD). unfold zeros. destruct (String.eqb m "diff"); reflexivity.
      - intros al rs u1 u2 p fast' slow' HM Hl'. assert (Hl2 : l - 1 < length slow') by lia.
        pose proof (@multi_cross_levels K (fmon K) (f0 K) false (ccorr W) al rs BINNING_MEAN block_means block_means_0 mean_levels _ _ _ _ _ _ _ _ _ _ _ _ _ _ HM Hmethod Hnorm (l - 1) Hl2) as HS.
        replace (S (l - 1)) with l in HS by lia.
        assert (HN : level <= nf / 2 ^ l). { apply top_level_spec; [exact level_bounds|]. pose proof (last_top nf level nlevel). lia. }
        pose proof (@level_call_all K W w t1 t2 level period chunk_size count len method binning nlevel "full" T1 T2 total h D m BINNING_MEAN norm nm auto
          Hargs Hmethod (or_introl eq_refl) Hperiod (or_introl eq_refl) Hroots frames Hgiven Hnorm Hlen (al l) l ltac:(lia) HN) as HA.
        assert (EA := eq_trans (eq_sym HS) HA). injection EA as ->.
        unfold multi_all, srest, tail_row. rewrite tuple_count by (unfold delays; replace (l =? 0) with false by lia; exact (proj1 level_bounds)).
        unfold all_pairs. apply (@sel_same_pos _ _ _ (nf / 2 ^ l)); [pose proof (proj1 level_bounds); lia| |]; rewrite map_length, seq_length; reflexivity.
    Qed.
  End Cross.

  Section Auto.
    Variable frames : list C.
    Hypothesis Ht2 : t2 = None.
    Hypothesis Hnorm : _default_norm norm m false = Ok nm.
    Hypothesis Hlen : nf <= length frames.
    Hypothesis Hm : m <> "diff".
    Hypothesis Hdistinct : NoDup (firstn nf T1).
    Hypothesis Hfft : m = "fft" -> period * level <= h + 1.
    Notation stream := (iacorr_multi W w frames t1 (Some level) norm method count len period binning nlevel chunk_size auto "full" stats).
    Notation memory al rs u p := (acorr_multi W al rs (sig frames) u p level binning nlevel norm method).
    Lemma sig_len : length (sig frames) = nf.
    Proof. apply signal_length. exact Hlen. Qed.

    Theorem auto_levels_equal : nlevel = None -> exists fast slow b v, stream = Ok ((fast, slow), b, v) /\
      forall al rs u p fast' slow', memory al rs u p = Ok (fast', slow') -> slow' = slow.
    Proof.
      intros HX. destruct (@iacorr_multi_levels K W w t1 t2 level period chunk_size count len method binning nlevel "full" T1 T2 total h D m BINNING_MEAN norm nm auto stats
        Hargs Hmethod (or_introl eq_refl) Hperiod Hnlevel (or_introl eq_refl) Hfit Hroots frames Ht2 Hnorm Hlen (or_introl Hm) Hdistinct Hfft eq_refl) as (fast & slow & b & v & E & HL & HC & _).
      exists fast, slow, b, v. split; [exact E|]. intros al rs u p fast' slow' HM.
      assert (EL : length slow' = length slow).
      { rewrite HL, HX. cbn [last_level]. pose proof HM as HM'. rewrite HX in HM'. apply multi_auto_nlevel in HM'. rewrite sig_len in HM'.
        destruct HM' as (A & B & C'). symmetry. apply top_level_unique; [lia|exact B|exact C']. }
      apply list_nth_ext with (d := DBad); [exact EL|]. intros l Hl.
      pose proof (@multi_auto_levels K (fmon K) (f0 K) false (acorr W) al rs BINNING_MEAN block_means block_means_0 mean_levels _ _ _ _ _ _ _ _ _ _ _ _ HM Hmethod Hnorm l Hl) as HS.
      specialize (HC (S l) ltac:(lia) (or_introl HX) (al (S l))). unfold level_call_auto in HC.
      replace (S l - 1) with l in HC by lia. unfold stream_blocks in HC. cbn [Z.eqb BINNING_MEAN Pos.eqb] in HC.
      match type of HS with ?A = _ => assert (HC' : A = Ok (nth l slow DBad)) by exact HC end.
      assert (EQ := eq_trans (eq_sym HS) HC'). injection EQ as EQ. exact EQ.
    Qed.

    (** A level that is lost: its blocks are fewer than one chunk. *)
    Theorem auto_levels_lost : nlevel <> None -> exists fast slow b v, stream = Ok ((fast, slow), b, v) /\
      forall l, 0 < l <= length slow -> D < l -> data_count (fmon K) (nth (l - 1) slow DBad) = repeat 0 level /\
        forall al rs u p fast' slow', memory al rs u p = Ok (fast', slow') -> l <= length slow' ->
          0 < nth 0 (data_count (fmon K) (nth (l - 1) slow' DBad)) 0.
    Proof.
      intros HX. destruct (@iacorr_multi_levels K W w t1 t2 level period chunk_size count len method binning nlevel "full" T1 T2 total h D m BINNING_MEAN norm nm auto stats
        Hargs Hmethod (or_introl eq_refl) Hperiod Hnlevel (or_introl eq_refl) Hfit Hroots frames Ht2 Hnorm Hlen (or_introl Hm) Hdistinct Hfft eq_refl) as (fast & slow & b & v & E & HL & _ & HZ).
      exists fast, slow, b, v. split; [exact E|]. intros l Hl HD. split.
      - rewrite (HZ l Hl HX HD). unfold zeros. destruct (String.eqb m "diff"); reflexivity.
      - intros al rs u p fast' slow' HM Hl'. assert (Hl2 : l - 1 < length slow') by lia.
        pose proof (@multi_auto_levels K (fmon K) (f0 K) false (acorr W) al rs BINNING_MEAN block_means block_means_0 mean_levels _ _ _ _ _ _ _ _ _ _ _ _ HM Hmethod Hnorm (l - 1) Hl2) as HS.
        replace (S (l - 1)) with l in HS by lia.
        assert (HN : level <= nf / 2 ^ l). { apply top_level_spec; [exact level_bounds|]. pose proof (last_top nf level nlevel). lia. }
        pose proof (@level_call_auto_all K W w t1 t2 level period chunk_size count len method binning nlevel "full" T1 T2 total h D m BINNING_MEAN norm nm auto
          Hargs Hmethod (or_introl eq_refl) Hperiod (or_introl eq_refl) Hroots frames Hnorm Hlen Hfft (al l) l ltac:(lia) HN) as HA.
        assert (EA := eq_trans (eq_sym HS) HA). injection EA as ->.
        unfold multi_all, srest, tail_row. rewrite tuple_count by (unfold delays; replace (l =? 0) with false by lia; exact (proj1 level_bounds)).
        unfold all_pairs. apply (@usel_same_pos _ _ (nf / 2 ^ l)); [pose proof (proj1 level_bounds); lia|]; rewrite map_length, seq_length; reflexivity.
    Qed.
  End Auto.
End Equal.
