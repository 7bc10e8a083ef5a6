(** The results of iccorr and iacorr. *)
From Verif Require Import Base Kernels PairSpec KernelProofs PairLemmas RegularProofs CoreModel FftModel FftProofs CoreProofs CoreProofs2 CoreProofs3 CoreApi
  NormModel CorrModel CorrSpec CorrProofs CorrProofs2 PairAcc PairTuple MultiModel MultiSpec MultiProofs StreamModel CallPairs CallFresh StreamBuffer StreamLoop StreamChunk StreamSpec StreamSetup StreamFits StreamIter StreamSingle StreamInst StreamEqual StreamParts.
From Coq Require Import String ZifyBool ZifyNat.
Open Scope string_scope.
Open Scope nat_scope.
Open Scope list_scope.
Local Notation length := List.length.
Set Implicit Arguments.

Lemma xorb_same a b : a = b -> xorb a b = false.
Proof. intros ->. destruct b; reflexivity. Qed.
Lemma xorb_given (t1 t2 : option (list Z)) : xorb (given t1) (given t2) = false -> given t1 = given t2.
Proof. destruct t1, t2; cbn; auto; discriminate. Qed.

Lemma map_seq_part A (f : nat -> A) h c n : (c + 1) * h <= n -> map f (seq (c * h) h) = chunk_part h c (map f (seq 0 n)).
Proof.
  intros H. destruct h as [|h']; [reflexivity|]. set (h := S h') in *. 
  apply list_nth_ext with (d := f 0); unfold chunk_part; [rewrite firstn_length, skipn_length, !map_length, !seq_length; lia|].
  rewrite map_length, seq_length. intros i Hi. rewrite nth_firstn, nth_skipn, !nth_map_seq_from by lia. f_equal. lia.
Qed.

Section Main.
  Variable K : Fld.
  Notation C := (Cx K).
  Variable W : nat -> Cx K.
  Variable w : world K.
  Variables (t1 t2 : option (list Z)) (n : nat) (chunk_size count len : option nat) (method : option string) (mode : string).
  Variables (T1 T2 : list Z) (total h D : nat) (m : string) (norm : option Z) (nm : Z) (auto stats : bool).
  Hypothesis Hcall : stream_call t1 t2 n chunk_size count len method mode T1 T2 total h D m.
  Notation nf := (h * 2 ^ D).
  Notation sig := (stream_signal auto h nf).

  Lemma far_separated lag N i (HL : forall d, lag d = true -> (Z.abs d < Z.of_nat N)%Z) : far_apart T1 T2 h nf N -> i = nf / h ->
    separated lag (fun k => nth k T1 0%Z) (fun k => nth k T2 0%Z) h i.
  Proof.
    intros HF -> a b Ha Hb HC. destruct (call_facts Hcall) as (F1 & F2 & F3 & F4 & F5 & F6).
    assert (E : nf / h * h = nf) by (rewrite F6; lia). rewrite E in Ha, Hb.
    destruct (lag (nth b T2 0 - nth a T1 0)%Z) eqn:EL; [|reflexivity]. apply HL in EL. specialize (HF a b Ha Hb HC). lia.
  Qed.
  Lemma lag_real_small N i : i < N -> forall d, lag_real i d = true -> (Z.abs d < Z.of_nat N)%Z.
  Proof. intros H d. unfold lag_real. lia. Qed.
  Lemma lag_cx_small N i : 0 < N -> i < 2 * N - 1 -> forall d, lag_cx N i d = true -> (Z.abs d < Z.of_nat N)%Z.
  Proof. intros H0 H d. unfold lag_cx, lag_at. destruct (Nat.ltb_spec i N); lia. Qed.

    Lemma kind_eqb a b : (a = "diff" <-> b = "diff") -> String.eqb a "diff" = String.eqb b "diff".
    Proof. intros H. destruct (String.eqb_spec a "diff") as [E|E], (String.eqb_spec b "diff") as [E'|E']; auto; exfalso; tauto. Qed.
    Lemma fits_method m' u v N : call_fits W m' u v N -> m' = "corr" \/ m' = "fft" \/ m' = "diff".
    Proof. intros [H|[H|[H _]]]; auto. Qed.
    Lemma pow_h : 2 ^ D * h = nf.
    Proof. lia. Qed.
      Lemma chunk_ser A (s : nat -> A) T c : nf <= length T -> c < 2 ^ D -> samples (map s (seq (c * h) h)) (Some (chunk_times h c T)) = ser s (fun k => nth k T 0%Z) (c * h) h.
      Proof.
        intros HT Hc. assert (H : (c + 1) * h <= nf) by nia. rewrite <- ser_samples. do 2 f_equal.
        unfold chunk_times. rewrite (@map_nth_seq Z Z (fun x => x)) by lia. rewrite map_id. reflexivity.
      Qed.
  Section Cross.
    Variable frames : list (C * C).
    Hypothesis Hgiven : given t1 = given t2.
    Hypothesis Hnorm : _default_norm norm m true = Ok nm.
    Hypothesis Hfit : method_fits W m T1 T2 h nf n.
    Hypothesis Hlen : nf <= length frames.

    (** What the statistics are *)
    Definition cross_stats (b : C * C) (v : K * K) : Prop :=
      b = (list_mean (sig (map fst frames)), list_mean (sig (map snd frames))) /\
      v = (list_variance (sig (map fst frames)), list_variance (sig (map snd frames))).
    Lemma cross_stats_ok bin b v : statistics true (single m bin T1 T2 h n nf) auto (fun k => nth k frames (c0 K, c0 K)) nf b v -> cross_stats b v.
    Proof.
      intros HS. destruct (call_facts Hcall) as (F1 & F2 & F3 & F4 & F5 & F6).
      apply (@statistics_lists K W t1 t2 n chunk_size count len method mode T1 T2 total h D m Hcall true auto bin (w_rs w) (w_rs_bg w) frames Hlen) in HS; auto. destruct HS as (H1 & H2 & H3). destruct (H3 eq_refl) as [H4 H5].
      destruct b, v. cbn [fst snd] in *. subst. split; reflexivity.
    Qed.

    Definition cross_row (V : CMon) (prod : sample C * sample C -> V) lag len' bin : cdata K V :=
      single_row V true w nm (String.eqb mode "full") auto m bin T1 T2 h n nf prod (@first K) (@second K) lag len' false frames (c0 K, c0 K) (nf / h).

    Lemma iccorr_row : exists d b v bin, iccorr W w frames t1 t2 (Some n) norm method count len chunk_size auto mode stats = Ok (d, b, v) /\
      d = cross_row (fmon K) (@rprod K m) (fun _ => lag_real) (fun n => n) bin /\ (stats = true -> cross_stats b v).
    Proof.
      destruct (@cross_real K W w t1 t2 n chunk_size count len method mode T1 T2 total h D m nm auto stats Hcall frames Hfit (norm_resolved _ _ _ Hnorm) Hlen)
        as (bin & ys & y & E & _ & Hd & _ & HS).
      exists (fst (fst (fst y))), (snd (fst y)), (snd y), bin. split; [|split; [rewrite Hd; reflexivity|intros H; apply (cross_stats_ok (HS H))]].
      unfold iccorr, iccorr_gen. rewrite (xorb_same Hgiven), (norm_early norm true (sc_method Hcall)), Hnorm. cbn [bind].
      match goal with |- bind ?x _ = _ => replace x with (@Ok (list (yielded K (fmon K))) (ys ++ [y])) by (symmetry; exact E) end. cbn [bind].
      rewrite last_yield_app. cbn [bind]. destruct y as [[[f s] b] v]. reflexivity.
    Qed.
    Lemma iccorr_complex_row : m <> "diff" -> exists d b v bin, iccorr_complex W w frames t1 t2 (Some n) norm method count len chunk_size auto mode stats = Ok (d, b, v) /\
      d = cross_row (cmon K) (@cx_prod K) lag_cx (fun n => 2 * n - 1) bin /\ (stats = true -> cross_stats b v).
    Proof.
      intros Hm.
      destruct (@cross_complex K W w t1 t2 n chunk_size count len method mode T1 T2 total h D m nm auto stats Hcall frames Hm Hfit (norm_resolved _ _ _ Hnorm) Hlen)
        as (bin & ys & y & E & _ & Hd & _ & HS).
      exists (fst (fst (fst y))), (snd (fst y)), (snd y), bin. split; [|split; [rewrite Hd; reflexivity|intros H; apply (cross_stats_ok (HS H))]].
      unfold iccorr_complex, iccorr_gen. rewrite (xorb_same Hgiven), (norm_early norm true (sc_method Hcall)), Hnorm. cbn [bind].
      match goal with |- bind ?x _ = _ => replace x with (@Ok (list (yielded K (cmon K))) (ys ++ [y])) by (symmetry; exact E) end. cbn [bind].
      rewrite last_yield_app. cbn [bind]. destruct y as [[[f s] b] v]. reflexivity.
    Qed.

    (** The row in full mode *)
    Section Full.
      Hypothesis Hfull : mode = "full".
      Hypothesis Hfar : far_apart T1 T2 h nf n.
      Variable bin : Z.
      Notation S0 := (single m bin T1 T2 h n nf).
      Notation v1 := (map (val1 true (w_rs w) (w_rs_bg w) S0 auto (fun k => nth k frames (c0 K, c0 K)) 0) (seq 0 nf)).
      Notation v2 := (map (val2 true (w_rs w) (w_rs_bg w) S0 auto (fun k => nth k frames (c0 K, c0 K)) 0) (seq 0 nf)).
      Lemma cross_row_full (V : CMon) (prod : sample C * sample C -> V) lag len' : invariant false prod ->
        (forall i, i < len' n -> forall d, lag n i d = true -> (Z.abs d < Z.of_nat n)%Z) ->
        cross_row V prod lag len' bin = add_pairs prod (@first K) (@second K) (zeros K V (String.eqb m "diff") true nm (len' n))
          (fun i => sel (lag n i) (samples v1 (kept nf t1)) (samples v2 (kept nf t2))).
      Proof.
        intros HI HL. destruct (call_facts Hcall) as (F1 & F2 & F3 & F4 & F5 & F6).
        rewrite (@kept_samples1 K W t1 t2 n chunk_size count len method mode T1 T2 total h D m Hcall).
        rewrite (@kept_samples2 K W t1 t2 n chunk_size count len method mode T1 T2 total h D m Hcall _ _ Hgiven).
        unfold cross_row, single_row, srow.
        replace (ser (val1 true (w_rs w) (w_rs_bg w) S0 auto (fun k => nth k frames (c0 K, c0 K)) 0) (fun k => nth k T1 0%Z) 0 nf)
          with (ser (val1 true (w_rs w) (w_rs_bg w) S0 auto (fun k => nth k frames (c0 K, c0 K)) 0) (tau1 S0 0) 0 (nf / h * h)) by (rewrite F6; f_equal; lia).
        replace (ser (val2 true (w_rs w) (w_rs_bg w) S0 auto (fun k => nth k frames (c0 K, c0 K)) 0) (fun k => nth k T2 0%Z) 0 nf)
          with (ser (val2 true (w_rs w) (w_rs_bg w) S0 auto (fun k => nth k frames (c0 K, c0 K)) 0) (tau2 S0 0) 0 (nf / h * h)) by (rewrite F6; f_equal; lia).
        apply (@row_full K V true (w_rs w) (w_rs_bg w) S0 nm (String.eqb mode "full") auto (fun k => nth k frames (c0 K, c0 K)) prod (@first K) (@second K) lag len' false); auto; try discriminate.
        - split; [exact HI|]. split; [apply inv_first|intros _; apply inv_second].
        - rewrite Hfull. reflexivity.
        - intros i Hi. apply (@far_separated (lag n i) n _ (HL i Hi) Hfar eq_refl).
      Qed.
    End Full.

    (** The number of pairs of frames *)
    Definition cross_pairs (same_chunk : bool) (lag : Z -> bool) : nat :=
      length (filter (fun p => (negb same_chunk || (fst p / h =? snd p / h)%nat) && lag (nth (snd p) T2 0 - nth (fst p) T1 0)%Z)%bool (list_prod (seq 0 nf) (seq 0 nf))).

    Theorem iccorr_full : mode = "full" -> far_apart T1 T2 h nf n ->
      exists d b v, iccorr W w frames t1 t2 (Some n) norm method count len chunk_size auto mode stats = Ok (d, b, v) /\ (stats = true -> cross_stats b v) /\
        (forall i, i < n -> nth i (data_count (fmon K) d) 0 = cross_pairs false (lag_real i)) /\
        forall al m', (m = "diff" <-> m' = "diff") -> call_fits W m' (firstn nf T1) (firstn nf T2) n ->
          ccorr W al (sig (map fst frames)) (sig (map snd frames)) (kept nf t1) (kept nf t2) (Some n) norm (Some m') None None None = Ok d.
    Proof.
      intros Hfull Hfar. destruct iccorr_row as (d & b & v & bin & E & Hd & HS). exists d, b, v. split; [exact E|]. split; [exact HS|].
      split; [intros i Hi; rewrite Hd, (@cross_row_full Hfull Hfar bin) by (try apply inv_rprod; apply lag_real_small); rewrite tuple_count by exact Hi;
        rewrite (@kept_samples1 K W t1 t2 n chunk_size count len method mode T1 T2 total h D m Hcall), (@kept_samples2 K W t1 t2 n chunk_size count len method mode T1 T2 total h D m Hcall _ _ Hgiven);
        apply sel_length|].
      intros al m' HK HF. rewrite Hd. assert (Hm' := fits_method HF).
      assert (Hnorm' : _default_norm norm m' true = Ok nm) by (rewrite <- (norm_method norm true HK); exact Hnorm).
      rewrite (@ccorr_norm K W al _ _ _ _ _ norm nm m' _ _ _ Hm' Hnorm').
      rewrite (@cross_row_full Hfull Hfar bin) by (try apply inv_rprod; apply lag_real_small).
      rewrite <- (@ccorr_squares K W al m' nm _ _ _ _ _ _ Hm' (norm_resolved _ _ _ Hnorm')).
      destruct (@values1 K W t1 t2 n chunk_size count len method mode T1 T2 total h D m Hcall true auto bin (w_rs w) (w_rs_bg w) frames Hlen) as [E1 E2].
      destruct (@values2 K W t1 t2 n chunk_size count len method mode T1 T2 total h D m Hcall true auto bin (w_rs w) (w_rs_bg w) frames Hlen eq_refl) as [E3 E4].
      rewrite <- E2, <- E4, <- E1, <- E3.
      rewrite (@call_ccorr_fresh K W al m' nm _ _ _ _ n).
      - rewrite (rprod_kind K HK), (kind_eqb HK). reflexivity.
      - apply (@kept_okc K W t1 t2 n chunk_size count len method mode T1 T2 total h D m Hcall m'); auto; rewrite map_length, seq_length; reflexivity.
      - exact (norm_resolved _ _ _ Hnorm').
    Qed.
    Theorem iccorr_complex_full : m <> "diff" -> mode = "full" -> far_apart T1 T2 h nf n ->
      exists d b v, iccorr_complex W w frames t1 t2 (Some n) norm method count len chunk_size auto mode stats = Ok (d, b, v) /\ (stats = true -> cross_stats b v) /\
        (forall i, i < 2 * n - 1 -> nth i (data_count (cmon K) d) 0 = cross_pairs false (lag_cx n i)) /\
        forall al m', m' <> "diff" -> call_fits W m' (firstn nf T1) (firstn nf T2) n ->
          ccorr_complex W al (sig (map fst frames)) (sig (map snd frames)) (kept nf t1) (kept nf t2) (Some n) norm (Some m') None None None = Ok d.
    Proof.
      intros Hm Hfull Hfar. destruct (iccorr_complex_row Hm) as (d & b & v & bin & E & Hd & HS). exists d, b, v. split; [exact E|]. split; [exact HS|].
      destruct (call_facts Hcall) as (F0 & _).
      split; [intros i Hi; rewrite Hd, (@cross_row_full Hfull Hfar bin) by (try apply inv_cx; intros; eapply lag_cx_small; eauto; lia); rewrite tuple_count by exact Hi;
        rewrite (@kept_samples1 K W t1 t2 n chunk_size count len method mode T1 T2 total h D m Hcall), (@kept_samples2 K W t1 t2 n chunk_size count len method mode T1 T2 total h D m Hcall _ _ Hgiven);
        apply sel_length|].
      destruct (call_facts Hcall) as (F1 & _).
      intros al m' Hmd HF. rewrite Hd. assert (Hm' := fits_method HF). assert (HK : m = "diff" <-> m' = "diff") by tauto.
      assert (Hnorm' : _default_norm norm m' true = Ok nm) by (rewrite <- (norm_method norm true HK); exact Hnorm).
      rewrite (@ccorr_complex_norm K W al _ _ _ _ _ norm nm m' _ _ _ Hm' Hnorm').
      rewrite (@cross_row_full Hfull Hfar bin) by (try apply inv_cx; intros; eapply lag_cx_small; eauto; lia).
      rewrite <- (@ccorr_complex_squares K W al m' nm _ _ _ _ _ _ Hm' (norm_resolved _ _ _ Hnorm')).
      destruct (@values1 K W t1 t2 n chunk_size count len method mode T1 T2 total h D m Hcall true auto bin (w_rs w) (w_rs_bg w) frames Hlen) as [E1 E2].
      destruct (@values2 K W t1 t2 n chunk_size count len method mode T1 T2 total h D m Hcall true auto bin (w_rs w) (w_rs_bg w) frames Hlen eq_refl) as [E3 E4].
      rewrite <- E2, <- E4, <- E1, <- E3.
      rewrite (@call_ccorr_complex_fresh K W al m' nm _ _ _ _ n).
      - rewrite (kind_eqb HK). reflexivity.
      - apply (@kept_okc K W t1 t2 n chunk_size count len method mode T1 T2 total h D m Hcall m'); auto; rewrite map_length, seq_length; reflexivity.
      - exact Hmd.
      - lia.
      - exact (norm_resolved _ _ _ Hnorm').
    Qed.

    (** ** Chunk mode *)
    Notation X := (fun k => nth k frames (c0 K, c0 K)).
    Section Chunk.
      Hypothesis Hchunk : mode = "chunk".
      Variable bin : Z.
      Notation S0 := (single m bin T1 T2 h n nf).
      Notation value1 := (val1 true (w_rs w) (w_rs_bg w) S0 auto X 0).
      Notation value2 := (val2 true (w_rs w) (w_rs_bg w) S0 auto X 0).
      Notation time1 := (fun k => nth k T1 0%Z).
      Notation time2 := (fun k => nth k T2 0%Z).
      Lemma cross_row_chunk (V : CMon) (prod : sample C * sample C -> V) lag len' : invariant false prod ->
        cross_row V prod lag len' bin = add_pairs prod (@first K) (@second K) (zeros K V (String.eqb m "diff") true nm (len' n))
          (fun i => flat_map (fun k => sel (lag n i) (ser value1 time1 (k * h) h) (ser value2 time2 (k * h) h)) (seq 0 (2 ^ D))).
      Proof.
        intros HI. destruct (call_facts Hcall) as (F1 & F2 & F3 & F4 & F5 & F6). unfold cross_row, single_row, srow. rewrite F6.
        apply (@row_chunks K V true (w_rs w) (w_rs_bg w) S0 nm (String.eqb mode "full") auto X prod (@first K) (@second K) lag len' false).
        - split; [exact HI|]. split; [apply inv_first|intros _; apply inv_second].
        - left. rewrite Hchunk. reflexivity.
      Qed.
      Lemma chunk_values c : c < 2 ^ D -> 
        (map fst (map value1 (seq (c * h) h)) = chunk_part h c (sig (map fst frames)) /\ map snd (map value1 (seq (c * h) h)) = abs2 (chunk_part h c (sig (map fst frames)))) /\
        (map fst (map value2 (seq (c * h) h)) = chunk_part h c (sig (map snd frames)) /\ map snd (map value2 (seq (c * h) h)) = abs2 (chunk_part h c (sig (map snd frames)))).
      Proof.
        intros Hc. assert (H : (c + 1) * h <= nf) by nia.
        assert (E1 := @signal_values1 K W t1 t2 n chunk_size count len method mode T1 T2 total h D m Hcall true auto bin (w_rs w) (w_rs_bg w) frames Hlen nf Hlen).
        assert (E2 := @signal_values2 K W t1 t2 n chunk_size count len method mode T1 T2 total h D m Hcall true auto bin (w_rs w) (w_rs_bg w) frames Hlen nf eq_refl Hlen).
        rewrite <- E1, <- E2, <- !(@map_seq_part _ _ h c nf H). unfold abs2. rewrite !map_map. repeat split; reflexivity.
      Qed.
      Lemma chunk_okc m' c : c < 2 ^ D -> call_fits W m' (chunk_times h c T1) (chunk_times h c T2) n ->
        okc W m' (map value1 (seq (c * h) h)) (map value2 (seq (c * h) h)) (Some (chunk_times h c T1)) (Some (chunk_times h c T2)) n.
      Proof.
        intros Hc HF. destruct (call_facts Hcall) as (F1 & F2 & F3 & F4 & F5 & F6). assert (H : (c + 1) * h <= nf) by nia.
        apply okc_times; auto; rewrite ?map_length, ?seq_length; unfold chunk_times; rewrite ?firstn_length, ?skipn_length; try lia.
        destruct h; [lia|discriminate].
      Qed.
    End Chunk.

    Theorem iccorr_chunk : mode = "chunk" ->
      exists d b v, iccorr W w frames t1 t2 (Some n) norm method count len chunk_size auto mode stats = Ok (d, b, v) /\ (stats = true -> cross_stats b v) /\
        (forall al m', (m = "diff" <-> m' = "diff") -> (forall c, c < 2 ^ D -> call_fits W m' (chunk_times h c T1) (chunk_times h c T2) n) ->
          sum_of_chunks (fmon K) (2 ^ D) (fun c => ccorr W al (chunk_part h c (sig (map fst frames))) (chunk_part h c (sig (map snd frames)))
            (Some (chunk_times h c T1)) (Some (chunk_times h c T2)) (Some n) norm (Some m') None None None) d) /\
        forall i, i < n -> nth i (data_count (fmon K) d) 0 = cross_pairs true (lag_real i).
    Proof.
      intros Hchunk. destruct iccorr_row as (d & b & v & bin & E & Hd & HS). exists d, b, v. split; [exact E|]. split; [exact HS|].
      destruct (call_facts Hcall) as (F1 & F2 & F3 & F4 & F5 & F6).
      rewrite Hd, (@cross_row_chunk Hchunk bin) by apply inv_rprod. split.
      - intros al m' HK HF. eexists. split; [|split; [|symmetry; apply tuple_sum, pow_pos]].
        { rewrite map_length, seq_length. reflexivity. }
        intros c Hc. rewrite nth_map_seq by exact Hc. specialize (HF c Hc). assert (Hm' := fits_method HF).
        assert (Hnorm' : _default_norm norm m' true = Ok nm) by (rewrite <- (norm_method norm true HK); exact Hnorm).
        rewrite (@ccorr_norm K W al _ _ _ _ _ norm nm m' _ _ _ Hm' Hnorm').
        rewrite <- (@ccorr_squares K W al m' nm _ _ _ _ _ _ Hm' (norm_resolved _ _ _ Hnorm')).
        destruct (@chunk_values bin c Hc) as [[E1 E2] [E3 E4]]. rewrite <- E2, <- E4, <- E1, <- E3.
        rewrite (@call_ccorr_fresh K W al m' nm _ _ _ _ n (@chunk_okc bin m' c Hc HF) (norm_resolved _ _ _ Hnorm')).
        rewrite !chunk_ser by assumption. rewrite (rprod_kind K HK), (kind_eqb HK). reflexivity.
      - intros i Hi. rewrite tuple_count by exact Hi. rewrite sel_chunks by lia. rewrite pow_h. reflexivity.
    Qed.
    Theorem iccorr_complex_chunk : m <> "diff" -> mode = "chunk" ->
      exists d b v, iccorr_complex W w frames t1 t2 (Some n) norm method count len chunk_size auto mode stats = Ok (d, b, v) /\ (stats = true -> cross_stats b v) /\
        (forall al m', m' <> "diff" -> (forall c, c < 2 ^ D -> call_fits W m' (chunk_times h c T1) (chunk_times h c T2) n) ->
          sum_of_chunks (cmon K) (2 ^ D) (fun c => ccorr_complex W al (chunk_part h c (sig (map fst frames))) (chunk_part h c (sig (map snd frames)))
            (Some (chunk_times h c T1)) (Some (chunk_times h c T2)) (Some n) norm (Some m') None None None) d) /\
        forall i, i < 2 * n - 1 -> nth i (data_count (cmon K) d) 0 = cross_pairs true (lag_cx n i).
    Proof.
      intros Hm Hchunk. destruct (iccorr_complex_row Hm) as (d & b & v & bin & E & Hd & HS). exists d, b, v. split; [exact E|]. split; [exact HS|].
      destruct (call_facts Hcall) as (F1 & F2 & F3 & F4 & F5 & F6).
      rewrite Hd, (@cross_row_chunk Hchunk bin) by apply inv_cx. split.
      - intros al m' Hmd HF. eexists. split; [|split; [|symmetry; apply tuple_sum, pow_pos]].
        { rewrite map_length, seq_length. reflexivity. }
        intros c Hc. rewrite nth_map_seq by exact Hc. specialize (HF c Hc). assert (Hm' := fits_method HF). assert (HK : m = "diff" <-> m' = "diff") by tauto.
        assert (Hnorm' : _default_norm norm m' true = Ok nm) by (rewrite <- (norm_method norm true HK); exact Hnorm).
        rewrite (@ccorr_complex_norm K W al _ _ _ _ _ norm nm m' _ _ _ Hm' Hnorm').
        rewrite <- (@ccorr_complex_squares K W al m' nm _ _ _ _ _ _ Hm' (norm_resolved _ _ _ Hnorm')).
        destruct (@chunk_values bin c Hc) as [[E1 E2] [E3 E4]]. rewrite <- E2, <- E4, <- E1, <- E3.
        rewrite (@call_ccorr_complex_fresh K W al m' nm _ _ _ _ n (@chunk_okc bin m' c Hc HF) Hmd ltac:(lia) (norm_resolved _ _ _ Hnorm')).
        rewrite !chunk_ser by assumption. rewrite (kind_eqb HK). reflexivity.
      - intros i Hi. rewrite tuple_count by exact Hi. rewrite sel_chunks by lia. rewrite pow_h. reflexivity.
    Qed.
  End Cross.

  (** ** Auto-correlation *)
  Section Auto.
    Variable frames : list C.
    Hypothesis Ht2 : t2 = None.
    Hypothesis Hnorm : _default_norm norm m false = Ok nm.
    Hypothesis Hfit : method_fits W m T1 T2 h nf n.
    Hypothesis Hlen : nf <= length frames.
    Notation frames2 := (map (fun x => (x, c0 K)) frames).
    Notation X := (fun k => nth k frames2 (c0 K, c0 K)).

    Lemma same_times : T2 = T1.
    Proof. destruct (given_times W Hcall) as (_ & H & _). rewrite Ht2 in H. exact H. Qed.
    Lemma frames2_fst : map fst frames2 = frames.
    Proof. rewrite map_map. apply map_id. Qed.
    Lemma frames2_len : nf <= length frames2.
    Proof. rewrite map_length. exact Hlen. Qed.
    Definition auto_stats (b : C) (v : K) : Prop := b = list_mean (sig frames) /\ v = list_variance (sig frames).
    Lemma auto_stats_ok bin b v : statistics false (single m bin T1 T2 h n nf) auto X nf b v -> auto_stats (fst b) (fst v).
    Proof.
      intros HS. destruct (call_facts Hcall) as (F1 & F2 & F3 & F4 & F5 & F6).
      apply (@statistics_lists K W t1 t2 n chunk_size count len method mode T1 T2 total h D m Hcall false auto bin (w_rs w) (w_rs_bg w) frames2 frames2_len) in HS; auto; [|apply frames2_len].
      rewrite frames2_fst in HS. destruct HS as (H1 & H2 & _). split; assumption.
    Qed.
    Definition auto_row (V : CMon) (prod : sample C * sample C -> V) lost bin : cdata K V :=
      single_row V false w nm (String.eqb mode "full") auto m bin T1 T2 h n nf prod (@halfsum K) (@halfsum K) (fun _ => lag_real) (fun n => n) lost frames2 (c0 K, c0 K) (nf / h).

    Lemma iacorr_row : m <> "diff" \/ mode = "chunk" -> NoDup (firstn nf T1) ->
      exists d b v bin, iacorr W w frames t1 (Some n) norm method count len chunk_size auto mode stats = Ok (d, b, v) /\
      d = auto_row (fmon K) (@rprod K m) false bin /\ (stats = true -> auto_stats b v).
    Proof.
      intros Hm HD.
      destruct (@auto_real K W w t1 t2 n chunk_size count len method mode T1 T2 total h D m nm auto stats Hcall frames2 Hm same_times HD Hfit (norm_resolved _ _ _ Hnorm) frames2_len)
        as (bin & ys & y & E & _ & Hd & _ & HS).
      exists (fst (fst (fst y))), (fst (snd (fst y))), (fst (snd y)), bin. split; [|split; [rewrite Hd; reflexivity|intros H; apply (auto_stats_ok (HS H))]].
      unfold iacorr, iacorr_gen. rewrite (norm_early norm false (sc_method Hcall)), Hnorm. cbn [bind]. rewrite Ht2 in E.
      match goal with |- bind ?x _ = _ => replace x with (@Ok (list (yielded K (fmon K))) (ys ++ [y])) by (symmetry; exact E) end. cbn [bind].
      rewrite last_yield_app. cbn [bind]. destruct y as [[[f s] b] v]. reflexivity.
    Qed.
    Lemma iacorr_complex_row : m <> "diff" -> (forall a b, a < b -> b < nf -> (nth a T1 0 < nth b T1 0)%Z) ->
      exists d b v bin, iacorr_complex W w frames t1 (Some n) norm method count len chunk_size auto mode stats = Ok (d, b, v) /\
      d = auto_row (cmon K) (@cx_prod_ordered K) true bin /\ (stats = true -> auto_stats b v).
    Proof.
      intros Hm HI.
      destruct (@auto_complex K W w t1 t2 n chunk_size count len method mode T1 T2 total h D m nm auto stats Hcall frames2 Hm same_times HI Hfit (norm_resolved _ _ _ Hnorm) frames2_len)
        as (bin & ys & y & E & _ & Hd & _ & HS).
      exists (fst (fst (fst y))), (fst (snd (fst y))), (fst (snd y)), bin. split; [|split; [rewrite Hd; reflexivity|intros H; apply (auto_stats_ok (HS H))]].
      unfold iacorr_complex, iacorr_gen. rewrite (norm_early norm false (sc_method Hcall)), Hnorm. cbn [bind]. rewrite Ht2 in E.
      match goal with |- bind ?x _ = _ => replace x with (@Ok (list (yielded K (cmon K))) (ys ++ [y])) by (symmetry; exact E) end. cbn [bind].
      rewrite last_yield_app. cbn [bind]. destruct y as [[[f s] b] v]. reflexivity.
    Qed.
    Definition auto_pairs (same_chunk : bool) (i : nat) : nat :=
      length (filter (fun p => (negb same_chunk || (fst p / h =? snd p / h)%nat) && lag_real i (nth (snd p) T1 0 - nth (fst p) T1 0)%Z)%bool (upairs (seq 0 nf))).

    Section Rows.
      Variable bin : Z.
      Notation S0 := (single m bin T1 T2 h n nf).
      Notation value := (val1 false (w_rs w) (w_rs_bg w) S0 auto X 0).
      Notation time := (fun k => nth k T1 0%Z).
      Lemma auto_row_full (V : CMon) (prod : sample C * sample C -> V) : invariant true prod -> invariant false prod -> mode = "full" -> far_apart T1 T2 h nf n ->
        auto_row V prod false bin = add_pairs prod (@halfsum K) (@halfsum K) (zeros K V (String.eqb m "diff") false nm n)
          (fun i => usel (lag_real i) (samples (map value (seq 0 nf)) (kept nf t1))).
      Proof.
        intros HI HI' Hfull Hfar. destruct (call_facts Hcall) as (F1 & F2 & F3 & F4 & F5 & F6).
        rewrite (@kept_samples1 K W t1 t2 n chunk_size count len method mode T1 T2 total h D m Hcall).
        unfold auto_row, single_row, srow.
        replace (ser value time 0 nf) with (ser value (tau1 S0 0) 0 (nf / h * h)) by (rewrite F6; f_equal; lia).
        apply (@row_full K V false (w_rs w) (w_rs_bg w) S0 nm (String.eqb mode "full") auto X prod (@halfsum K) (@halfsum K) (fun _ => lag_real) (fun n => n) false); auto; try discriminate.
        - split; [exact HI'|]. split; [apply inv_halfsum|discriminate].
        - rewrite Hfull. reflexivity.
        - intros i Hi. rewrite same_times in Hfar.
          intros a b Ha Hb HC. change (s_half S0) with h in Ha, Hb, HC.
          assert (E : nf / h * h = nf) by (rewrite F6; lia). rewrite E in Ha, Hb.
          specialize (Hfar a b Ha Hb HC). unfold tau1, delays in *. cbn [s_t1 s_fast Nat.eqb single] in *. unfold lag_real. lia.
        - intros _. split; [exact HI|apply inv_halfsum].
        - intros _ _ i d. unfold lag_real. rewrite Z.abs_opp. reflexivity.
      Qed.
      Lemma auto_row_chunk (V : CMon) (prod : sample C * sample C -> V) lost : invariant false prod -> mode = "chunk" \/ lost = true ->
        auto_row V prod lost bin = add_pairs prod (@halfsum K) (@halfsum K) (zeros K V (String.eqb m "diff") false nm n)
          (fun i => flat_map (fun k => usel (lag_real i) (ser value time (k * h) h)) (seq 0 (2 ^ D))).
      Proof.
        intros HI Hl. destruct (call_facts Hcall) as (F1 & F2 & F3 & F4 & F5 & F6). unfold auto_row, single_row, srow. rewrite F6.
        apply (@row_chunks K V false (w_rs w) (w_rs_bg w) S0 nm (String.eqb mode "full") auto X prod (@halfsum K) (@halfsum K) (fun _ => lag_real) (fun n => n) lost).
        - split; [exact HI|]. split; [apply inv_halfsum|discriminate].
        - destruct Hl as [Hl|Hl]; [left; rewrite Hl; reflexivity|right; auto].
      Qed.
      Lemma auto_chunk_values c : c < 2 ^ D ->
        map fst (map value (seq (c * h) h)) = chunk_part h c (sig frames) /\ map snd (map value (seq (c * h) h)) = abs2 (chunk_part h c (sig frames)).
      Proof.
        intros Hc. assert (H : (c + 1) * h <= nf) by nia.
        assert (E1 := @signal_values1 K W t1 t2 n chunk_size count len method mode T1 T2 total h D m Hcall false auto bin (w_rs w) (w_rs_bg w) frames2 frames2_len nf frames2_len).
        rewrite frames2_fst in E1. rewrite <- E1, <- !(@map_seq_part _ _ h c nf H). unfold abs2. rewrite !map_map. repeat split; reflexivity.
      Qed.
      Lemma auto_chunk_ok m' c : c < 2 ^ D -> NoDup (firstn nf T1) -> call_fits W m' (chunk_times h c T1) (chunk_times h c T1) n ->
        oka W m' (map value (seq (c * h) h)) (Some (chunk_times h c T1)) n.
      Proof.
        intros Hc HD HF. destruct (call_facts Hcall) as (F1 & F2 & F3 & F4 & F5 & F6). assert (H : (c + 1) * h <= nf) by nia.
        apply oka_times; auto.
        - rewrite ?map_length, ?seq_length; unfold chunk_times; rewrite ?firstn_length, ?skipn_length; lia.
        - destruct h; [lia|discriminate].
        - apply (chunk_nodup W Hcall c HD H).
      Qed.
      Lemma auto_values : map fst (map value (seq 0 nf)) = sig frames /\ map snd (map value (seq 0 nf)) = abs2 (sig frames).
      Proof.
        assert (E1 := @values1 K W t1 t2 n chunk_size count len method mode T1 T2 total h D m Hcall false auto bin (w_rs w) (w_rs_bg w) frames2 frames2_len).
        rewrite frames2_fst in E1. exact E1.
      Qed.
    End Rows.

    Theorem iacorr_full : m <> "diff" -> mode = "full" -> NoDup (firstn nf T1) -> far_apart T1 T1 h nf n ->
      exists d b v, iacorr W w frames t1 (Some n) norm method count len chunk_size auto mode stats = Ok (d, b, v) /\ (stats = true -> auto_stats b v) /\
        (forall i, i < n -> nth i (data_count (fmon K) d) 0 = auto_pairs false i) /\
        forall al m', m' <> "diff" -> call_fits W m' (firstn nf T1) (firstn nf T1) n ->
          acorr W al (sig frames) (kept nf t1) None (Some n) norm (Some m') None = Ok d.
    Proof.
      intros Hm Hfull HD Hfar. destruct (iacorr_row (or_introl Hm) HD) as (d & b & v & bin & E & Hd & HS). exists d, b, v. split; [exact E|]. split; [exact HS|].
      rewrite <- same_times in Hfar at 2.
      assert (HR := @auto_row_full bin (fmon K) (@rprod K m) (inv_rprod K true m) (inv_rprod K false m) Hfull Hfar). rewrite Hd, HR. split.
      - intros i Hi. rewrite tuple_count by exact Hi. rewrite (@kept_samples1 K W t1 t2 n chunk_size count len method mode T1 T2 total h D m Hcall). apply usel_length.
      - intros al m' Hmd HF. assert (Hm' := fits_method HF). assert (HK : m = "diff" <-> m' = "diff") by tauto.
        assert (Hnorm' : _default_norm norm m' false = Ok nm) by (rewrite <- (norm_method norm false HK); exact Hnorm).
        rewrite (@acorr_norm K W al _ _ _ norm nm m' _ _ Hm' Hnorm').
        rewrite <- (@acorr_squares K W al m' nm _ _ _ _ Hm' (norm_resolved _ _ _ Hnorm')).
        destruct (auto_values bin) as [E1 E2]. rewrite <- E2, <- E1.
        rewrite (@call_acorr_fresh K W al m' nm _ _ n).
        + rewrite (rprod_kind K HK), (kind_eqb HK). reflexivity.
        + apply (@kept_oka K W t1 t2 n chunk_size count len method mode T1 T2 total h D m Hcall m'); auto; rewrite map_length, seq_length; reflexivity.
        + exact (norm_resolved _ _ _ Hnorm').
    Qed.
    Theorem iacorr_chunk : mode = "chunk" -> NoDup (firstn nf T1) ->
      exists d b v, iacorr W w frames t1 (Some n) norm method count len chunk_size auto mode stats = Ok (d, b, v) /\ (stats = true -> auto_stats b v) /\
        (forall i, i < n -> nth i (data_count (fmon K) d) 0 = auto_pairs true i) /\
        forall al m', (m = "diff" <-> m' = "diff") -> (forall c, c < 2 ^ D -> call_fits W m' (chunk_times h c T1) (chunk_times h c T1) n) ->
          sum_of_chunks (fmon K) (2 ^ D) (fun c => acorr W al (chunk_part h c (sig frames)) (Some (chunk_times h c T1)) None (Some n) norm (Some m') None) d.
    Proof.
      intros Hchunk HD. destruct (iacorr_row (or_intror Hchunk) HD) as (d & b & v & bin & E & Hd & HS). exists d, b, v. split; [exact E|]. split; [exact HS|].
      destruct (call_facts Hcall) as (F1 & F2 & F3 & F4 & F5 & F6).
      rewrite Hd, (@auto_row_chunk bin) by (try apply inv_rprod; auto). split.
      - intros i Hi. rewrite tuple_count by exact Hi. rewrite usel_chunks by lia. rewrite pow_h. reflexivity.
      - intros al m' HK HF. eexists. split; [|split; [|symmetry; apply tuple_sum, pow_pos]].
        { rewrite map_length, seq_length. reflexivity. }
        intros c Hc. rewrite nth_map_seq by exact Hc. specialize (HF c Hc). assert (Hm' := fits_method HF).
        assert (Hnorm' : _default_norm norm m' false = Ok nm) by (rewrite <- (norm_method norm false HK); exact Hnorm).
        rewrite (@acorr_norm K W al _ _ _ norm nm m' _ _ Hm' Hnorm').
        rewrite <- (@acorr_squares K W al m' nm _ _ _ _ Hm' (norm_resolved _ _ _ Hnorm')).
        destruct (@auto_chunk_values bin c Hc) as [E1 E2]. rewrite <- E2, <- E1.
        rewrite (@call_acorr_fresh K W al m' nm _ _ n (@auto_chunk_ok bin m' c Hc HD HF) (norm_resolved _ _ _ Hnorm')).
        rewrite (chunk_ser _ _ F2 Hc). rewrite (rprod_kind K HK), (kind_eqb HK). reflexivity.
    Qed.
    (** In both modes the pairs across chunks are missing. *)
    Theorem iacorr_complex_chunks : m <> "diff" -> (forall a b, a < b -> b < nf -> (nth a T1 0 < nth b T1 0)%Z) ->
      exists d b v, iacorr_complex W w frames t1 (Some n) norm method count len chunk_size auto mode stats = Ok (d, b, v) /\ (stats = true -> auto_stats b v) /\
        (forall i, i < n -> nth i (data_count (cmon K) d) 0 = auto_pairs true i) /\
        forall al m', m' <> "diff" -> (forall c, c < 2 ^ D -> call_fits W m' (chunk_times h c T1) (chunk_times h c T1) n) ->
          sum_of_chunks (cmon K) (2 ^ D) (fun c => acorr_complex W al (chunk_part h c (sig frames)) (Some (chunk_times h c T1)) None (Some n) norm (Some m') None) d.
    Proof.
      intros Hm HI. destruct (iacorr_complex_row Hm HI) as (d & b & v & bin & E & Hd & HS). exists d, b, v. split; [exact E|]. split; [exact HS|].
      destruct (call_facts Hcall) as (F1 & F2 & F3 & F4 & F5 & F6).
      assert (HD : NoDup (firstn nf T1)).
      { apply NoDup_nth with (d := 0%Z). rewrite firstn_length. intros i j Hi Hj EE. rewrite !nth_firstn in EE by lia.
        destruct (lt_eq_lt_dec i j) as [[H|H]|H]; [|exact H|]; [pose proof (HI i j H ltac:(lia))|pose proof (HI j i H ltac:(lia))]; lia. }
      rewrite Hd, (@auto_row_chunk bin) by (try apply inv_ordered; auto). split.
      - intros i Hi. rewrite tuple_count by exact Hi. rewrite usel_chunks by lia. rewrite pow_h. reflexivity.
      - intros al m' Hmd HF. eexists. split; [|split; [|symmetry; apply tuple_sum, pow_pos]].
        { rewrite map_length, seq_length. reflexivity. }
        intros c Hc. rewrite nth_map_seq by exact Hc. specialize (HF c Hc). assert (Hm' := fits_method HF). assert (HK : m = "diff" <-> m' = "diff") by tauto.
        assert (Hnorm' : _default_norm norm m' false = Ok nm) by (rewrite <- (norm_method norm false HK); exact Hnorm).
        rewrite (@acorr_complex_norm K W al _ _ _ norm nm m' _ _ Hm' Hnorm').
        rewrite <- (@acorr_complex_squares K W al m' nm _ _ _ _ Hm' (norm_resolved _ _ _ Hnorm')).
        destruct (@auto_chunk_values bin c Hc) as [E1 E2]. rewrite <- E2, <- E1.
        rewrite (@call_acorr_complex_fresh K W al m' nm _ _ n (@auto_chunk_ok bin m' c Hc HD HF) Hmd (norm_resolved _ _ _ Hnorm')).
        rewrite (chunk_ser _ _ F2 Hc). rewrite (kind_eqb HK). reflexivity.
    Qed.
  End Auto.
End Main.
