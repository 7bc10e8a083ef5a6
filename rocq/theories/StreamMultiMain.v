(** The results of iccorr_multi and iacorr_multi. *)
From Verif Require Import Base Kernels PairSpec KernelProofs PairLemmas RegularProofs CoreModel FftModel FftProofs CoreProofs CoreProofs2 CoreProofs3 CoreApi
  NormModel CorrModel CorrSpec CorrProofs CorrProofs2 PairAcc PairTuple MultiModel MultiSpec MultiProofs MultiLevels StreamModel CallPairs CallFresh StreamBuffer StreamLoop StreamChunk StreamSpec StreamSetup StreamFits StreamIter StreamSingle StreamInst StreamEqual StreamParts StreamMain StreamMulti.
From Coq Require Import String ZifyBool ZifyNat.
Open Scope string_scope.
Open Scope nat_scope.
Open Scope list_scope.
Local Notation length := List.length.
Set Implicit Arguments.

Lemma default_method_arg method binning m bin : _default_method_and_binning method binning = Ok (m, bin) -> method_arg method m.
Proof.
  intros H. apply bind_ok in H. destruct H as (b & H1 & H2). unfold method_arg.
  cbv zeta in H2. match type of H2 with (if ?c then _ else _) = _ => destruct c end; [|discriminate]. injection H2 as <- _. destruct method as [m'|].
  - split; [|auto]. destruct (String.eqb_spec m' "corr") as [E|]; [auto|]. destruct (String.eqb_spec m' "fft") as [E|]; [auto|].
    destruct (String.eqb_spec m' "diff") as [E|]; [auto|]. discriminate.
  - auto.
Qed.

Section Blocks.
  Variable G : QGrp.
  (** The signal of the last samples of all complete blocks *)
  Definition block_lasts (l : nat) (f : list G) : list G :=
    map (fun k => nth ((k + 1) * 2 ^ l - 1) f (m0 G)) (seq 0 (length f / 2 ^ l)).
  Definition stream_blocks (bin : Z) (l : nat) (f : list G) : list G :=
    if (bin =? BINNING_MEAN)%Z then block_means G l f else block_lasts l f.
  Lemma binned_blocks bin r x l n : bin = BINNING_MEAN \/ bin = BINNING_FIRST ->
    map (binned G bin r x l) (seq 0 (n / 2 ^ l)) = stream_blocks bin l (map x (seq 0 n)).
  Proof.
    intros [->| ->]; [apply binned_means|]. unfold stream_blocks. cbn [Z.eqb BINNING_FIRST BINNING_MEAN]. unfold block_lasts. rewrite map_length, seq_length.
    apply map_ext_in. intros k Hk. apply in_seq in Hk. rewrite binned_first. pose proof (pow_pos l) as P.
    assert ((k + 1) * 2 ^ l <= n / 2 ^ l * 2 ^ l) by (apply Nat.mul_le_mono_r; lia).
    assert (n / 2 ^ l * 2 ^ l <= n) by (rewrite Nat.mul_comm; apply Nat.mul_div_le; lia).
    rewrite nth_indep with (d' := x 0) by (rewrite map_length, seq_length; nia). rewrite map_nth, seq_nth by nia. reflexivity.
  Qed.
End Blocks.

Lemma slow_row_zeros (K : Fld) cross m nm level :
  MultiModel.slow_row K (V := fmon K) (f0 K) false cross (negb (String.eqb m "diff")) nm level = zeros K (fmon K) (String.eqb m "diff") cross nm level.
Proof. unfold MultiModel.slow_row, zeros. destruct (String.eqb m "diff"); reflexivity. Qed.

Section Main.
  Variable K : Fld.
  Notation C := (Cx K).
  Variable W : nat -> Cx K.
  Variable w : world K.
  Variables (t1 t2 : option (list Z)) (level period : nat) (chunk_size count len : option nat) (method : option string) (binning nlevel : option Z) (mode : string).
  Variables (T1 T2 : list Z) (total h D : nat) (m : string) (bin : Z) (norm : option Z) (nm : Z) (auto stats : bool).
  Hypothesis Hargs : stream_args t1 t2 level chunk_size count len T1 T2 total h D.
  Hypothesis Hmethod : _default_method_and_binning method binning = Ok (m, bin).
  Hypothesis Hmode : mode = "full" \/ mode = "chunk".
  Hypothesis Hperiod : 0 < period.
  Hypothesis Hnlevel : nlevel_ok nlevel.
  Hypothesis Hbin : bin = BINNING_MEAN \/ (bin = BINNING_FIRST /\ nlevel <> None).
  Hypothesis Hfit : method_fits W m T1 T2 h (h * 2 ^ D) (period * level).
  Hypothesis Hroots : m = "fft" -> all_roots W.
  Notation nf := (h * 2 ^ D).
  Notation sig := (stream_signal auto h nf).
  Notation blk := (fun G => @stream_blocks G bin).

  Lemma Hcall : stream_call t1 t2 level chunk_size count len method mode T1 T2 total h D m.
  Proof. split; [exact Hargs|eapply default_method_arg; exact Hmethod|exact Hmode]. Qed.
  Lemma method_roots : m = "corr" \/ m = "diff" \/ (m = "fft" /\ all_roots W).
  Proof. destruct (sc_method Hcall) as [[E|[E|E]] _]; auto. Qed.
  Lemma mean_or_first : bin = BINNING_MEAN \/ bin = BINNING_FIRST.
  Proof. clear - Hbin. tauto. Qed.
  Lemma default_mean : nlevel = None -> bin = BINNING_MEAN.
  Proof. clear - Hbin. tauto. Qed.
  Lemma neighbours c c' : (c + 1) * h <= nf -> (c' + 1) * h <= nf -> c <= c' + 1 -> c' <= c + 1 ->
    call_fits W m (chunk_times h c T1) (chunk_times h c' T2) (period * level).
  Proof. intros H1 H2 H3 H4. destruct Hfit as [E|[E|[E HF]]]; [left; exact E|right; left; exact E|right; right; split; [exact E|apply HF; assumption]]. Qed.
  Lemma chunks_of_level l : 0 < h -> l <= D -> nf / (h * 2 ^ l) * h = nf / 2 ^ l.
  Proof.
    intros Hh H. pose proof (pow_pos l). replace D with (D - l + l) by lia. rewrite Nat.pow_add_r.
    replace (h * (2 ^ (D - l) * 2 ^ l)) with (2 ^ (D - l) * (h * 2 ^ l)) by nia. rewrite Nat.div_mul by nia.
    replace (2 ^ (D - l) * (h * 2 ^ l)) with (2 ^ (D - l) * h * 2 ^ l) by nia. rewrite Nat.div_mul by lia. reflexivity.
  Qed.
  Lemma no_chunk_of_level l : D < l -> 0 < h -> nf / (h * 2 ^ l) = 0.
  Proof. intros H Hh. apply Nat.div_small. apply Nat.mul_lt_mono_pos_l; [exact Hh|]. apply Nat.pow_lt_mono_r; lia. Qed.

  Section Cross.
    Variable frames : list (C * C).
    Hypothesis Hgiven : given t1 = given t2.
    Hypothesis Hnorm : _default_norm norm m true = Ok nm.
    Hypothesis Hlen : nf <= length frames.
    Notation S0 := (multi m bin T1 T2 h level period D nf nlevel).
    Notation X := (fun k => nth k frames (c0 K, c0 K)).
    Notation rowc := (multi_row (fmon K) true w nm (String.eqb mode "full") auto m bin T1 T2 h level period D nlevel (@rprod K m) (@first K) (@second K) (fun _ => lag_real) (fun n => n) false frames (c0 K, c0 K)).
    Notation allc := (multi_all (fmon K) true w nm auto m bin T1 T2 h level period D nlevel (@rprod K m) (@first K) (@second K) (fun _ => lag_real) (fun n => n) frames (c0 K, c0 K)).

    Lemma signal1 : map (fst_signal true S0 auto X) (seq 0 nf) = sig (map fst frames).
    Proof. exact (@signal_values1 K W t1 t2 level chunk_size count len method mode T1 T2 total h D m Hcall true auto bin (w_rs w) (w_rs_bg w) frames Hlen nf Hlen). Qed.
    Lemma signal2 : map (snd_signal true S0 auto X) (seq 0 nf) = sig (map snd frames).
    Proof. exact (@signal_values2 K W t1 t2 level chunk_size count len method mode T1 T2 total h D m Hcall true auto bin (w_rs w) (w_rs_bg w) frames Hlen nf eq_refl Hlen). Qed.

    (** The call of the in-memory function at level [l] *)
    Definition level_call (al : bool) (l : nat) : res (cdata K (fmon K)) :=
      ccorr W al (blk (cgrp K) l (sig (map fst frames))) (blk (cgrp K) l (sig (map snd frames))) None None (Some level) (Some nm) (Some m)
        (option_map (blk (fgrp K) l) (squares_arg nm m (sig (map fst frames)))) (option_map (blk (fgrp K) l) (squares_arg nm m (sig (map snd frames))))
        (Some (MultiModel.slow_row K (f0 K) false true (negb (String.eqb m "diff")) nm level)).
    Lemma level_call_all al l : 0 < l -> level <= nf / 2 ^ l -> level_call al l = Ok (allc l).
    Proof.
      intros Hl HN. destruct (call_facts Hcall) as (F1 & _). unfold level_call. rewrite slow_row_zeros.
      set (v1 := map (val1 true (w_rs w) (w_rs_bg w) S0 auto X l) (seq 0 (nf / 2 ^ l))).
      set (v2 := map (val2 true (w_rs w) (w_rs_bg w) S0 auto X l) (seq 0 (nf / 2 ^ l))).
      assert (E1 : map fst v1 = blk (cgrp K) l (sig (map fst frames))).
      { unfold v1. rewrite map_map. rewrite <- signal1. apply (@binned_blocks (cgrp K)), mean_or_first. }
      assert (E2 : map fst v2 = blk (cgrp K) l (sig (map snd frames))).
      { unfold v2. rewrite map_map. rewrite <- signal2. apply (@binned_blocks (cgrp K)), mean_or_first. }
      assert (Q1 : map snd v1 = blk (fgrp K) l (map (@cnorm2 K) (sig (map fst frames)))).
      { unfold v1. rewrite map_map. rewrite <- signal1, map_map. apply (@binned_blocks (fgrp K)), mean_or_first. }
      assert (Q2 : map snd v2 = blk (fgrp K) l (map (@cnorm2 K) (sig (map snd frames)))).
      { unfold v2. rewrite map_map. rewrite <- signal2, map_map. apply (@binned_blocks (fgrp K)), mean_or_first. }
      rewrite <- E1, <- E2.
      replace (option_map (blk (fgrp K) l) (squares_arg nm m (sig (map fst frames)))) with (sqarg K nm m (map snd v1))
        by (unfold sqarg, squares_arg; rewrite Q1; destruct (has_flag nm NORM_STRUCTURED && negb (String.eqb m "diff"))%bool; reflexivity).
      replace (option_map (blk (fgrp K) l) (squares_arg nm m (sig (map snd frames)))) with (sqarg K nm m (map snd v2))
        by (unfold sqarg, squares_arg; rewrite Q2; destruct (has_flag nm NORM_STRUCTURED && negb (String.eqb m "diff"))%bool; reflexivity).
      rewrite (@call_ccorr K W al m nm v1 v2 None None level level).
      - f_equal. unfold multi_all, srest, tail_row. replace (delays S0 l) with level by (unfold delays; replace (l =? 0) with false by lia; reflexivity).
        reflexivity.
      - apply okc_none; [unfold v1, v2; rewrite !map_length; reflexivity| | |exact method_roots];
          unfold v1; rewrite ?map_length, ?seq_length; [destruct (nf / 2 ^ l); [lia|discriminate]|lia].
      - exact (norm_resolved _ _ _ Hnorm).
      - apply zeros_shaped.
    Qed.
    Lemma row_all l c : mode = "full" -> 0 < l -> c * h = nf / 2 ^ l -> rowc l c = allc l.
    Proof.
      intros Hf Hl Hc. destruct (call_facts Hcall) as (F1 & _).
      apply multi_row_all; auto; try discriminate.
      - split; [apply inv_rprod|]. split; [apply inv_first|intros _; apply inv_second].
      - rewrite Hf. reflexivity.
      - intros i Hi d. unfold lag_real. lia.
    Qed.

    Theorem iccorr_multi_run : exists ys fast slow b v,
      multi_iter (fmon K) false (ccorr W) (acorr W) w true frames t1 t2 period (Some level) chunk_size binning method count len auto nlevel norm stats mode = Ok (ys ++ [((fast, slow), b, v)]) /\
      iccorr_multi W w frames t1 t2 (Some level) norm method count len period binning nlevel chunk_size auto mode stats = Ok ((fast, slow), b, v) /\
      length ys = 2 ^ D /\ fast = rowc 0 (2 ^ D) /\ length slow = last_level nf level nlevel /\
      (forall l, 0 < l < decades D nf level nlevel -> nth (l - 1) slow DBad = rowc l (nf / (h * 2 ^ l))) /\
      (forall l, Nat.max (decades D nf level nlevel) 1 <= l <= last_level nf level nlevel -> nth (l - 1) slow DBad = allc l) /\
      (forall c, c < length ys -> let y := nth c ys ((DBad, []), w_bg w, w_var w) in
        stats = true -> statistics true S0 auto X ((c + 1) * h) (snd (fst y)) (snd y)) /\
      (stats = true -> statistics true S0 auto X nf b v).
    Proof.
      destruct (call_facts Hcall) as (F1 & F2 & F3 & F4 & F5 & F6).
      destruct (@multi_run K (fmon K) W false true (ccorr W) (acorr W) w nm (String.eqb mode "full") auto stats m bin T1 T2 h level period D nlevel
        (@rprod K m) (@first K) (@second K) (fun _ => lag_real) (fun n => n) false) with (mode := mode) (t1 := t1) (t2 := t2) (chunk_size := chunk_size)
        (method := method) (binning := binning) (count := count) (lenf := len) (normarg := norm) (frames := frames) (x0 := (c0 K, c0 K))
        as (ys & y & E & H1 & H2 & H3 & H4 & H5 & H6 & H7); auto; try discriminate.
      - intros _ al v1 v2 u1 u2 n' N d HO _ HSh. exact (@call_ccorr K W al m nm v1 v2 u1 u2 n' N d HO (norm_resolved _ _ _ Hnorm) HSh).
      - split; [apply inv_rprod|]. split; [apply inv_first|intros _; apply inv_second].
      - exact default_mean.
      - intros _ c c' G1 G2 G3. apply neighbours; auto; lia.
      - intros _. exact method_roots.
      - apply multi_setup with (total := total); auto.
      - destruct y as [[[fast slow] b] v]. exists ys, fast, slow, b, v. cbn [fst snd] in *. split; [exact E|]. split; [|auto 10].
        unfold iccorr_multi, iccorr_multi_gen. rewrite (xorb_same Hgiven).
        match goal with |- bind ?x _ = _ => replace x with (@Ok (list (yielded K (fmon K))) (ys ++ [((fast, slow), b, v)])) by (symmetry; exact E) end. cbn [bind].
        apply last_yield_app.
    Qed.

    Theorem iccorr_multi_levels : mode = "full" ->
      exists fast slow b v, iccorr_multi W w frames t1 t2 (Some level) norm method count len period binning nlevel chunk_size auto mode stats = Ok ((fast, slow), b, v) /\
        length slow = last_level nf level nlevel /\
        (forall l, 0 < l <= length slow -> nlevel = None \/ l <= D -> forall al, level_call al l = Ok (nth (l - 1) slow DBad)) /\
        (forall l, 0 < l <= length slow -> nlevel <> None -> D < l -> nth (l - 1) slow DBad = zeros K (fmon K) (String.eqb m "diff") true nm level).
    Proof.
      intros Hf. destruct iccorr_multi_run as (ys & fast & slow & b & v & _ & E & H1 & H2 & H3 & H4 & H5 & _).
      destruct (call_facts Hcall) as (F1 & F2 & F3 & F4 & F5 & F6). assert (Hh : 0 < h) by lia.
      assert (HN : 0 < level <= nf) by (clear - F1; pose proof (pow_pos D); nia).
      exists fast, slow, b, v. split; [exact E|]. split; [exact H3|]. rewrite H3. split.
      - intros l Hl Hc al. assert (HT : level <= nf / 2 ^ l). { apply top_level_spec; [exact HN|]. pose proof (last_top nf level nlevel). lia. }
        rewrite level_call_all by (lia || exact HT). f_equal. destruct (le_lt_dec (Nat.max (decades D nf level nlevel) 1) l) as [HD|HD].
        + symmetry. apply H5. lia.
        + rewrite H4 by lia. symmetry. apply row_all; [exact Hf|lia|]. apply chunks_of_level; [exact Hh|].
          destruct Hc as [Hc|Hc]; [|exact Hc]. unfold decades in HD. rewrite Hc in HD. lia.
      - intros l Hl HX HD. pose proof (@no_rest D nf level nlevel HX). rewrite H4 by lia. rewrite no_chunk_of_level by assumption.
        apply multi_row_empty; [split; [apply inv_rprod|split; [apply inv_first|intros _; apply inv_second]]|exact F1|lia].
    Qed.
  End Cross.

  (** The auto-correlation *)
  Section Auto.
    Variable frames : list C.
    Hypothesis Ht2 : t2 = None.
    Hypothesis Hnorm : _default_norm norm m false = Ok nm.
    Hypothesis Hlen : nf <= length frames.
    Hypothesis Hm : m <> "diff" \/ mode = "chunk".
    Hypothesis Hdistinct : NoDup (firstn nf T1).
    Hypothesis Hfft : m = "fft" -> period * level <= h + 1.
    Notation S0 := (multi m bin T1 T2 h level period D nf nlevel).
    Notation pairs := (map (fun x : C => (x, c0 K)) frames).
    Notation X := (fun k => nth k pairs (c0 K, c0 K)).
    Notation rowa := (multi_row (fmon K) false w nm (String.eqb mode "full") auto m bin T1 T2 h level period D nlevel (@rprod K m) (@halfsum K) (@halfsum K) (fun _ => lag_real) (fun n => n) false pairs (c0 K, c0 K)).
    Notation alla := (multi_all (fmon K) false w nm auto m bin T1 T2 h level period D nlevel (@rprod K m) (@halfsum K) (@halfsum K) (fun _ => lag_real) (fun n => n) pairs (c0 K, c0 K)).

    Lemma pairs_length : nf <= length pairs.
    Proof. rewrite map_length. exact Hlen. Qed.
    Lemma signal_auto : map (fst_signal false S0 auto X) (seq 0 nf) = sig frames.
    Proof.
      assert (E : map fst pairs = frames) by (rewrite map_map; apply map_id). transitivity (sig (map fst pairs)); [|rewrite E; reflexivity].
      exact (@signal_values1 K W t1 t2 level chunk_size count len method mode T1 T2 total h D m Hcall false auto bin (w_rs w) (w_rs_bg w) pairs pairs_length nf pairs_length).
    Qed.
    Lemma same_times : T2 = T1.
    Proof. destruct Hargs as (_ & E & _). rewrite Ht2 in E. exact E. Qed.

    Definition level_call_auto (al : bool) (l : nat) : res (cdata K (fmon K)) :=
      acorr W al (blk (cgrp K) l (sig frames)) None (option_map (blk (fgrp K) l) (squares_arg nm m (sig frames))) (Some level) (Some nm) (Some m)
        (Some (MultiModel.slow_row K (f0 K) false false (negb (String.eqb m "diff")) nm level)).
    Lemma level_call_auto_all al l : 0 < l -> level <= nf / 2 ^ l -> level_call_auto al l = Ok (alla l).
    Proof.
      intros Hl HN. destruct (call_facts Hcall) as (F1 & _). unfold level_call_auto. rewrite slow_row_zeros.
      set (v1 := map (val1 false (w_rs w) (w_rs_bg w) S0 auto X l) (seq 0 (nf / 2 ^ l))).
      assert (E1 : map fst v1 = blk (cgrp K) l (sig frames)).
      { unfold v1. rewrite map_map. rewrite <- signal_auto. apply (@binned_blocks (cgrp K)), mean_or_first. }
      assert (Q1 : map snd v1 = blk (fgrp K) l (map (@cnorm2 K) (sig frames))).
      { unfold v1. rewrite map_map. rewrite <- signal_auto, map_map. apply (@binned_blocks (fgrp K)), mean_or_first. }
      rewrite <- E1.
      replace (option_map (blk (fgrp K) l) (squares_arg nm m (sig frames))) with (sqarg K nm m (map snd v1))
        by (unfold sqarg, squares_arg; rewrite Q1; destruct (has_flag nm NORM_STRUCTURED && negb (String.eqb m "diff"))%bool; reflexivity).
      rewrite (@call_acorr K W al m nm v1 None level).
      - f_equal. unfold multi_all, srest, tail_row. replace (delays S0 l) with level by (unfold delays; replace (l =? 0) with false by lia; reflexivity).
        reflexivity.
      - apply oka_none; [| |exact method_roots];
          unfold v1; rewrite ?map_length, ?seq_length; [destruct (nf / 2 ^ l); [lia|discriminate]|lia].
      - exact (norm_resolved _ _ _ Hnorm).
      - apply zeros_shaped.
    Qed.
    Lemma row_all_auto l c : mode = "full" -> 0 < l -> c * h = nf / 2 ^ l -> rowa l c = alla l.
    Proof.
      intros Hf Hl Hc. destruct (call_facts Hcall) as (F1 & _).
      apply multi_row_all; auto; try discriminate.
      - split; [apply inv_rprod|]. split; [apply inv_halfsum|discriminate].
      - rewrite Hf. reflexivity.
      - intros i Hi d. unfold lag_real. lia.
      - intros _. split; [apply inv_rprod|apply inv_halfsum].
      - intros _ n i d. unfold lag_real. lia.
    Qed.

    Theorem iacorr_multi_run : exists ys fast slow b v,
      multi_iter (fmon K) false (ccorr W) (acorr W) w false pairs t1 None period (Some level) chunk_size binning method count len auto nlevel norm stats mode = Ok (ys ++ [((fast, slow), b, v)]) /\
      iacorr_multi W w frames t1 (Some level) norm method count len period binning nlevel chunk_size auto mode stats = Ok ((fast, slow), b, v) /\
      length ys = 2 ^ D /\ fast = rowa 0 (2 ^ D) /\ length slow = last_level nf level nlevel /\
      (forall l, 0 < l < decades D nf level nlevel -> nth (l - 1) slow DBad = rowa l (nf / (h * 2 ^ l))) /\
      (forall l, Nat.max (decades D nf level nlevel) 1 <= l <= last_level nf level nlevel -> nth (l - 1) slow DBad = alla l) /\
      (forall c, c < length ys -> let y := nth c ys ((DBad, []), w_bg w, w_var w) in
        stats = true -> statistics false S0 auto X ((c + 1) * h) (snd (fst y)) (snd y)) /\
      (stats = true -> statistics false S0 auto X nf b v).
    Proof.
      destruct (call_facts Hcall) as (F1 & F2 & F3 & F4 & F5 & F6).
      destruct (@multi_run K (fmon K) W false false (ccorr W) (acorr W) w nm (String.eqb mode "full") auto stats m bin T1 T2 h level period D nlevel
        (@rprod K m) (@halfsum K) (@halfsum K) (fun _ => lag_real) (fun n => n) false) with (mode := mode) (t1 := t1) (t2 := @None (list Z)) (chunk_size := chunk_size)
        (method := method) (binning := binning) (count := count) (lenf := len) (normarg := norm) (frames := pairs) (x0 := (c0 K, c0 K))
        as (ys & y & E & H1 & H2 & H3 & H4 & H5 & H6 & H7); auto; try discriminate.
      - intros _ al v u n' d HO HSh. exact (@call_acorr K W al m nm v u n' d HO (norm_resolved _ _ _ Hnorm) HSh).
      - intros _ Hfull al v1 v2 u1 u2 n' crop d HO _ Hc HSh.
        assert (Hm' : m <> "diff"). { destruct Hm as [Hm'|Hm']; [exact Hm'|]. rewrite Hm' in Hfull. discriminate Hfull. }
        assert (Ed : String.eqb m "diff" = false) by (apply String.eqb_neq; exact Hm'). rewrite Ed in HSh.
        exact (@call_merge K W al m nm v1 v2 u1 u2 n' crop d HO Hm' (@norm_both nm m Hm' (norm_resolved _ _ _ Hnorm)) ltac:(lia) HSh).
      - split; [apply inv_rprod|]. split; [apply inv_halfsum|discriminate].
      - exact default_mean.
      - intros _ c Hc. split; [exact (@chunk_nodup K W t1 t2 level chunk_size count len method mode T1 T2 total h D m Hcall c Hdistinct Hc)|].
        pose proof neighbours as FN. rewrite same_times in FN. split; [apply FN; auto; lia|intros _ Hc0; apply FN; auto; clear - Hc Hc0; nia].
      - intros _. exact method_roots.
      - rewrite <- Ht2. apply multi_setup with (total := total); auto.
      - exact pairs_length.
      - destruct y as [[[fast slow] b] v]. exists ys, fast, slow, b, v. cbn [fst snd] in *. split; [exact E|]. split; [|auto 10].
        unfold iacorr_multi, iacorr_multi_gen.
        match goal with |- bind ?x _ = _ => replace x with (@Ok (list (yielded K (fmon K))) (ys ++ [((fast, slow), b, v)])) by (symmetry; exact E) end. cbn [bind].
        apply last_yield_app.
    Qed.

    Theorem iacorr_multi_levels : mode = "full" ->
      exists fast slow b v, iacorr_multi W w frames t1 (Some level) norm method count len period binning nlevel chunk_size auto mode stats = Ok ((fast, slow), b, v) /\
        length slow = last_level nf level nlevel /\
        (forall l, 0 < l <= length slow -> nlevel = None \/ l <= D -> forall al, level_call_auto al l = Ok (nth (l - 1) slow DBad)) /\
        (forall l, 0 < l <= length slow -> nlevel <> None -> D < l -> nth (l - 1) slow DBad = zeros K (fmon K) (String.eqb m "diff") false nm level).
    Proof.
      intros Hf. destruct iacorr_multi_run as (ys & fast & slow & b & v & _ & E & H1 & H2 & H3 & H4 & H5 & _).
      destruct (call_facts Hcall) as (F1 & F2 & F3 & F4 & F5 & F6). assert (Hh : 0 < h) by lia.
      assert (HN : 0 < level <= nf) by (clear - F1; pose proof (pow_pos D); nia).
      exists fast, slow, b, v. split; [exact E|]. split; [exact H3|]. rewrite H3. split.
      - intros l Hl Hc al. assert (HT : level <= nf / 2 ^ l). { apply top_level_spec; [exact HN|]. pose proof (last_top nf level nlevel). lia. }
        rewrite level_call_auto_all by (lia || exact HT). f_equal. destruct (le_lt_dec (Nat.max (decades D nf level nlevel) 1) l) as [HD|HD].
        + symmetry. apply H5. lia.
        + rewrite H4 by lia. symmetry. apply row_all_auto; [exact Hf|lia|]. apply chunks_of_level; [exact Hh|].
          destruct Hc as [Hc|Hc]; [|exact Hc]. unfold decades in HD. rewrite Hc in HD. lia.
      - intros l Hl HX HD. pose proof (@no_rest D nf level nlevel HX). rewrite H4 by lia. rewrite no_chunk_of_level by assumption.
        apply multi_row_empty; [split; [apply inv_rprod|split; [apply inv_halfsum|discriminate]]|exact F1|lia].
    Qed.
  End Auto.
End Main.
