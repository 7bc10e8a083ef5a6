(** Properties C34, C35, C38, C39 and C40: levels of the multiple-tau streams, the mode
    "chunk", and the cases in which streams differ from the functions in memory. *)
From Verif Require Import Base Kernels PairSpec CoreModel CoreApi CorrModel CorrSpec NormModel MultiModel MultiSpec MultiProofs MultiLevels CallPairs CallFresh StreamModel StreamBuffer StreamSpec
  StreamParts StreamInst StreamFits StreamEqual StreamMain StreamMulti StreamMultiMain StreamRegular StreamMultiEqual StreamErrors Examples Prop_Norm1 Prop_Multi Prop_Stream1.
From Coq Require Import String.
Open Scope string_scope.
Open Scope nat_scope.
Open Scope list_scope.
Local Notation length := List.length.
Set Implicit Arguments.

(* ------------------------------------------------------------------ *)
(** * C34 *)
(** With the binning BINNING_MEAN and no nlevel, iccorr_multi succeeds, and whenever
    ccorr_multi succeeds on the processed frames (whatever the times and the period, which
    only matter for the fast level), its slow levels are the same. *)
Theorem C34_cross K (W : nat -> Cx K) w t1 t2 level period chunk_size count len method binning T1 T2 total h D m norm nm auto stats frames :
  stream_args t1 t2 level chunk_size count len T1 T2 total h D -> _default_method_and_binning method binning = Ok (m, BINNING_MEAN) ->
  0 < period -> method_fits W m T1 T2 h (h * 2 ^ D) (period * level) -> (m = "fft" -> all_roots W) ->
  given t1 = given t2 -> _default_norm norm m true = Ok nm -> h * 2 ^ D <= length frames ->
  exists fast slow b v,
    iccorr_multi W w frames t1 t2 (Some level) norm method count len period binning None chunk_size auto "full" stats = Ok ((fast, slow), b, v) /\
    forall aligned rs u1 u2 p fast' slow',
      ccorr_multi W aligned rs (stream_signal auto h (h * 2 ^ D) (map fst frames)) (stream_signal auto h (h * 2 ^ D) (map snd frames)) u1 u2 p level binning None norm method = Ok (fast', slow') ->
      slow' = slow.
Proof. intros H1 H2 H3 H4 H5 H6 H7 H8. eapply cross_levels_equal; eauto. exact I. Qed.
Print Assumptions C34_cross.
Theorem C34_auto K (W : nat -> Cx K) w t level period chunk_size count len method binning T1 total h D m norm nm auto stats frames :
  stream_args t None level chunk_size count len T1 T1 total h D -> _default_method_and_binning method binning = Ok (m, BINNING_MEAN) ->
  0 < period -> method_fits W m T1 T1 h (h * 2 ^ D) (period * level) -> (m = "fft" -> all_roots W) ->
  _default_norm norm m false = Ok nm -> h * 2 ^ D <= length frames -> m <> "diff" -> NoDup (firstn (h * 2 ^ D) T1) -> (m = "fft" -> period * level <= h + 1) ->
  exists fast slow b v,
    iacorr_multi W w frames t (Some level) norm method count len period binning None chunk_size auto "full" stats = Ok ((fast, slow), b, v) /\
    forall aligned rs u p fast' slow',
      acorr_multi W aligned rs (stream_signal auto h (h * 2 ^ D) frames) u p level binning None norm method = Ok (fast', slow') ->
      slow' = slow.
Proof. intros H1 H2 H3 H4 H5 H6 H7 H8 H9 H10. eapply auto_levels_equal; eauto. exact I. Qed.
Print Assumptions C34_auto.
(** Level [l] is the correlation of the means of blocks of [2^l] frames; the levels are
    all those with at least [level] blocks. *)
Theorem C34_levels K (W : nat -> Cx K) w t1 t2 level period chunk_size count len method binning T1 T2 total h D m norm nm auto stats frames :
  stream_args t1 t2 level chunk_size count len T1 T2 total h D -> _default_method_and_binning method binning = Ok (m, BINNING_MEAN) ->
  0 < period -> method_fits W m T1 T2 h (h * 2 ^ D) (period * level) -> (m = "fft" -> all_roots W) ->
  given t1 = given t2 -> _default_norm norm m true = Ok nm -> h * 2 ^ D <= length frames ->
  let s1 := stream_signal auto h (h * 2 ^ D) (map fst frames) in
  let s2 := stream_signal auto h (h * 2 ^ D) (map snd frames) in
  exists fast slow b v,
    iccorr_multi W w frames t1 t2 (Some level) norm method count len period binning None chunk_size auto "full" stats = Ok ((fast, slow), b, v) /\
    (forall l, l <= length slow <-> level <= h * 2 ^ D / 2 ^ l) /\
    forall l, 0 < l <= length slow -> forall al,
      ccorr W al (block_means (cgrp K) l s1) (block_means (cgrp K) l s2) None None (Some level) (Some nm) (Some m)
        (option_map (block_means (fgrp K) l) (squares_arg nm m s1)) (option_map (block_means (fgrp K) l) (squares_arg nm m s2))
        (Some (MultiModel.slow_row K (f0 K) false true (negb (String.eqb m "diff")) nm level)) = Ok (nth (l - 1) slow DBad).
Proof.
  intros H1 H2 H3 H4 H5 H6 H7 H8. cbv zeta.
  destruct (@iccorr_multi_levels K W w t1 t2 level period chunk_size count len method binning None "full" T1 T2 total h D m BINNING_MEAN norm nm auto stats
    H1 H2 (or_introl eq_refl) H3 I (or_introl eq_refl) H4 H5 frames H6 H7 H8 eq_refl) as (fast & slow & b & v & E & HL & HC & _).
  exists fast, slow, b, v. split; [exact E|]. split; [|intros l Hl al; exact (HC l Hl (or_introl eq_refl) al)].
  intros l. rewrite HL. cbn [last_level]. apply top_level_spec. destruct H1 as (_ & _ & _ & _ & _ & Hn & _). pose proof (pow_pos D). nia.
Qed.
Print Assumptions C34_levels.
Definition mframes := map (fun k => (cz (Z.of_nat k * Z.of_nat k) 1, cz (Z.of_nat k) 2)) (seq 0 24).
Definition show_multi (r : res (cdata QcF QcF * list (cdata QcF QcF) * (Cx QcF * Cx QcF) * (QcF * QcF))) :=
  match r with Ok ((a, b), _, _) => Some (show_cor a, show_cnt a, map show_cor b, map show_cnt b) | Raise _ => None end.
(** 22 frames announced, 20 of them processed in chunks of five, levels of five delays *)
Example C34_case :
  stream_args None None 5 (Some 5) (Some 22) None (arange 22) (arange 22) 22 5 2 /\
  show_multi (iccorr_multi nW s_world mframes None None (Some 5) None None (Some 22) None 1 None None (Some 5) false "full" false) =
    show_rows (ccorr_multi nW no_al no_rs (map fst (firstn 20 mframes)) (map snd (firstn 20 mframes)) None None 1 5 None None None None) /\
  option_map snd (show_multi (iccorr_multi nW s_world mframes None None (Some 5) None None (Some 22) None 1 None None (Some 5) false "full" false)) =
    Some [[10; 18; 16; 14; 12]; [5; 8; 6; 4; 2]].
Proof. split; [repeat split; try (cbn; lia); auto|]. split; vm_compute; reflexivity. Qed.

(* ------------------------------------------------------------------ *)
(** * C35 *)
Theorem C35_cross K (W : nat -> Cx K) w t1 t2 n chunk_size count len method T1 T2 total h D m norm nm auto stats frames :
  stream_args t1 t2 n chunk_size count len T1 T2 total h D -> method_arg method m -> given t1 = given t2 ->
  _default_norm norm m true = Ok nm -> method_fits W m T1 T2 h (h * 2 ^ D) n -> h * 2 ^ D <= length frames ->
  exists d b v, iccorr W w frames t1 t2 (Some n) norm method count len chunk_size auto "chunk" stats = Ok (d, b, v) /\
    (forall al m', (m = "diff" <-> m' = "diff") -> (forall c, c < 2 ^ D -> call_fits W m' (chunk_times h c T1) (chunk_times h c T2) n) ->
      sum_of_chunks (fmon K) (2 ^ D) (fun c =>
        ccorr W al (chunk_part h c (stream_signal auto h (h * 2 ^ D) (map fst frames))) (chunk_part h c (stream_signal auto h (h * 2 ^ D) (map snd frames)))
          (Some (chunk_times h c T1)) (Some (chunk_times h c T2)) (Some n) norm (Some m') None None None) d) /\
    (far_apart T1 T2 h (h * 2 ^ D) n ->
     exists d' b' v', iccorr W w frames t1 t2 (Some n) norm method count len chunk_size auto "full" stats = Ok (d', b', v') /\
       forall i, i < n -> nth i (data_count (fmon K) d') 0 = nth i (data_count (fmon K) d) 0 + missing_pairs h (h * 2 ^ D) T1 T2 (lag_real i)).
Proof.
  intros HA HM HG HN HF HL.
  destruct (@iccorr_chunk K W w t1 t2 n chunk_size count len method "chunk" T1 T2 total h D m norm nm auto stats ltac:(split; auto) frames HG HN HF HL eq_refl) as (d & b & v & E & _ & HS & HC).
  exists d, b, v. split; [exact E|]. split; [exact HS|]. intros HX.
  destruct (@iccorr_full K W w t1 t2 n chunk_size count len method "full" T1 T2 total h D m norm nm auto stats ltac:(split; auto) frames HG HN HF HL eq_refl HX) as (d' & b' & v' & E' & _ & HC' & _).
  exists d', b', v'. split; [exact E'|]. intros i Hi. rewrite HC, HC' by exact Hi. apply cross_pairs_split.
Qed.
Print Assumptions C35_cross.
Theorem C35_cross_complex K (W : nat -> Cx K) w t1 t2 n chunk_size count len method T1 T2 total h D m norm nm auto stats frames :
  stream_args t1 t2 n chunk_size count len T1 T2 total h D -> method_arg method m -> m <> "diff" -> given t1 = given t2 ->
  _default_norm norm m true = Ok nm -> method_fits W m T1 T2 h (h * 2 ^ D) n -> h * 2 ^ D <= length frames ->
  exists d b v, iccorr_complex W w frames t1 t2 (Some n) norm method count len chunk_size auto "chunk" stats = Ok (d, b, v) /\
    (forall al m', m' <> "diff" -> (forall c, c < 2 ^ D -> call_fits W m' (chunk_times h c T1) (chunk_times h c T2) n) ->
      sum_of_chunks (cmon K) (2 ^ D) (fun c =>
        ccorr_complex W al (chunk_part h c (stream_signal auto h (h * 2 ^ D) (map fst frames))) (chunk_part h c (stream_signal auto h (h * 2 ^ D) (map snd frames)))
          (Some (chunk_times h c T1)) (Some (chunk_times h c T2)) (Some n) norm (Some m') None None None) d) /\
    (far_apart T1 T2 h (h * 2 ^ D) n ->
     exists d' b' v', iccorr_complex W w frames t1 t2 (Some n) norm method count len chunk_size auto "full" stats = Ok (d', b', v') /\
       forall i, i < 2 * n - 1 -> nth i (data_count (cmon K) d') 0 = nth i (data_count (cmon K) d) 0 + missing_pairs h (h * 2 ^ D) T1 T2 (lag_cx n i)).
Proof.
  intros HA HM Hd HG HN HF HL.
  destruct (@iccorr_complex_chunk K W w t1 t2 n chunk_size count len method "chunk" T1 T2 total h D m norm nm auto stats ltac:(split; auto) frames HG HN HF HL Hd eq_refl) as (d & b & v & E & _ & HS & HC).
  exists d, b, v. split; [exact E|]. split; [exact HS|]. intros HX.
  destruct (@iccorr_complex_full K W w t1 t2 n chunk_size count len method "full" T1 T2 total h D m norm nm auto stats ltac:(split; auto) frames HG HN HF HL Hd eq_refl HX) as (d' & b' & v' & E' & _ & HC' & _).
  exists d', b', v'. split; [exact E'|]. intros i Hi. rewrite HC, HC' by exact Hi. apply cross_pairs_split.
Qed.
Print Assumptions C35_cross_complex.
Theorem C35_auto K (W : nat -> Cx K) w t n chunk_size count len method T1 total h D m norm nm auto stats frames :
  stream_args t None n chunk_size count len T1 T1 total h D -> method_arg method m ->
  _default_norm norm m false = Ok nm -> method_fits W m T1 T1 h (h * 2 ^ D) n -> NoDup (firstn (h * 2 ^ D) T1) -> h * 2 ^ D <= length frames ->
  exists d b v, iacorr W w frames t (Some n) norm method count len chunk_size auto "chunk" stats = Ok (d, b, v) /\
    (forall al m', (m = "diff" <-> m' = "diff") -> (forall c, c < 2 ^ D -> call_fits W m' (chunk_times h c T1) (chunk_times h c T1) n) ->
      sum_of_chunks (fmon K) (2 ^ D) (fun c =>
        acorr W al (chunk_part h c (stream_signal auto h (h * 2 ^ D) frames)) (Some (chunk_times h c T1)) None (Some n) norm (Some m') None) d) /\
    (m <> "diff" -> far_apart T1 T1 h (h * 2 ^ D) n ->
     exists d' b' v', iacorr W w frames t (Some n) norm method count len chunk_size auto "full" stats = Ok (d', b', v') /\
       forall i, i < n -> nth i (data_count (fmon K) d') 0 = nth i (data_count (fmon K) d) 0 + missing_auto h (h * 2 ^ D) T1 i).
Proof.
  intros HA HM HN HF HT HL.
  destruct (@iacorr_chunk K W w t None n chunk_size count len method "chunk" T1 T1 total h D m norm nm auto stats ltac:(split; auto) frames eq_refl HN HF HL eq_refl HT) as (d & b & v & E & _ & HC & HS).
  exists d, b, v. split; [exact E|]. split; [exact HS|]. intros Hd HX.
  destruct (@iacorr_full K W w t None n chunk_size count len method "full" T1 T1 total h D m norm nm auto stats ltac:(split; auto) frames eq_refl HN HF HL Hd eq_refl HT HX) as (d' & b' & v' & E' & _ & HC' & _).
  exists d', b', v'. split; [exact E'|]. intros i Hi. rewrite HC, HC' by exact Hi. apply auto_pairs_split.
Qed.
Print Assumptions C35_auto.
Example C35_case :
  stream_args None None 3 (Some 4) None (Some 10) (arange 10) (arange 10) 10 4 1 /\
  map (fun mode => option_map (fun x => snd (fst (fst x))) (show_iter (iccorr nW s_world sframes None None (Some 3) (Some NORM_STANDARD) None None (Some 10) (Some 4) false mode true))) ["full"; "chunk"] =
    [Some [8; 14; 12]; Some [8; 12; 8]] /\
  map (fun i => missing_pairs 4 8 (arange 10) (arange 10) (lag_real i)) [0; 1; 2] = [0; 2; 4] /\
  map (fun mode => option_map (fun x => snd (fst (fst x))) (show_iauto (iacorr nW s_world sf1 None (Some 3) (Some NORM_STANDARD) None None (Some 10) (Some 4) false mode true))) ["full"; "chunk"] =
    [Some [8; 7; 6]; Some [8; 6; 4]].
Proof. split; [repeat split; try (cbn; lia); auto|]. repeat split; vm_compute; reflexivity. Qed.

(* ------------------------------------------------------------------ *)
(** * C38 *)
(** For an explicit nlevel: a level with fewer blocks than one chunk ([D < l]) has zero
    counts, whereas ccorr_multi counts pairs at this level. *)
Theorem C38_levels_lost K (W : nat -> Cx K) w t1 t2 level period chunk_size count len method binning nlevel T1 T2 total h D m norm nm auto stats frames :
  stream_args t1 t2 level chunk_size count len T1 T2 total h D -> _default_method_and_binning method binning = Ok (m, BINNING_MEAN) ->
  0 < period -> (0 <= nlevel)%Z -> method_fits W m T1 T2 h (h * 2 ^ D) (period * level) -> (m = "fft" -> all_roots W) ->
  given t1 = given t2 -> _default_norm norm m true = Ok nm -> h * 2 ^ D <= length frames ->
  exists fast slow b v,
    iccorr_multi W w frames t1 t2 (Some level) norm method count len period binning (Some nlevel) chunk_size auto "full" stats = Ok ((fast, slow), b, v) /\
    forall l, 0 < l <= length slow -> D < l -> data_count (fmon K) (nth (l - 1) slow DBad) = repeat 0 level /\
      forall aligned rs u1 u2 p fast' slow',
        ccorr_multi W aligned rs (stream_signal auto h (h * 2 ^ D) (map fst frames)) (stream_signal auto h (h * 2 ^ D) (map snd frames)) u1 u2 p level binning (Some nlevel) norm method = Ok (fast', slow') ->
        l <= length slow' -> 0 < nth 0 (data_count (fmon K) (nth (l - 1) slow' DBad)) 0.
Proof. intros H1 H2 H3 H4 H5 H6 H7 H8 H9. eapply cross_levels_lost; eauto. discriminate. Qed.
Print Assumptions C38_levels_lost.
Theorem C38_levels_lost_auto K (W : nat -> Cx K) w t level period chunk_size count len method binning nlevel T1 total h D m norm nm auto stats frames :
  stream_args t None level chunk_size count len T1 T1 total h D -> _default_method_and_binning method binning = Ok (m, BINNING_MEAN) ->
  0 < period -> (0 <= nlevel)%Z -> method_fits W m T1 T1 h (h * 2 ^ D) (period * level) -> (m = "fft" -> all_roots W) ->
  _default_norm norm m false = Ok nm -> h * 2 ^ D <= length frames -> m <> "diff" -> NoDup (firstn (h * 2 ^ D) T1) -> (m = "fft" -> period * level <= h + 1) ->
  exists fast slow b v,
    iacorr_multi W w frames t (Some level) norm method count len period binning (Some nlevel) chunk_size auto "full" stats = Ok ((fast, slow), b, v) /\
    forall l, 0 < l <= length slow -> D < l -> data_count (fmon K) (nth (l - 1) slow DBad) = repeat 0 level /\
      forall aligned rs u p fast' slow',
        acorr_multi W aligned rs (stream_signal auto h (h * 2 ^ D) frames) u p level binning (Some nlevel) norm method = Ok (fast', slow') ->
        l <= length slow' -> 0 < nth 0 (data_count (fmon K) (nth (l - 1) slow' DBad)) 0.
Proof. intros H1 H2 H3 H4 H5 H6 H7 H8 H9 H10 H11. eapply auto_levels_lost; eauto. discriminate. Qed.
Print Assumptions C38_levels_lost_auto.
(** The documented equality fails: 20 frames in chunks of 10, levels of five delays. *)
Theorem C38_equality_refuted : exists (w : world QcF) frames level chunk nlevel fast slow b v fast' slow',
  iccorr_multi nW w frames None None (Some level) None None (Some (length frames)) None 1 None (Some nlevel) (Some chunk) false "full" true = Ok ((fast, slow), b, v) /\
  ccorr_multi nW no_al no_rs (map fst frames) (map snd frames) None None 1 level None (Some nlevel) None None = Ok (fast', slow') /\
  length slow = length slow' /\ slow <> slow'.
Proof.
  exists s_world, (firstn 20 mframes), 5, 10, 2%Z.
  destruct (iccorr_multi nW s_world (firstn 20 mframes) None None (Some 5) None None (Some (length (firstn 20 mframes))) None 1 None (Some 2%Z) (Some 10) false "full" true) as [[[[fast slow] b] v]|e] eqn:E;
    [|exfalso; apply (f_equal show_multi) in E; vm_compute in E; discriminate].
  destruct (ccorr_multi nW no_al no_rs (map fst (firstn 20 mframes)) (map snd (firstn 20 mframes)) None None 1 5 None (Some 2%Z) None None) as [[fast' slow']|e] eqn:E';
    [|exfalso; apply (f_equal show_rows) in E'; vm_compute in E'; discriminate].
  exists fast, slow, b, v, fast', slow'. split; [reflexivity|]. split; [reflexivity|].
  assert (HL : length slow = 2). { apply (f_equal (fun r => option_map (fun x => length (snd (fst x))) (show_multi r))) in E. cbn [show_multi option_map fst snd] in E. rewrite map_length in E.
    assert (X := E). vm_compute in X. injection X as X. exact (eq_sym X). }
  assert (HL' : length slow' = 2). { apply (f_equal (fun r => option_map (fun x => length (snd (fst x))) (show_rows r))) in E'. cbn [show_rows option_map fst snd] in E'. rewrite map_length in E'.
    assert (X := E'). vm_compute in X. injection X as X. exact (eq_sym X). }
  split; [rewrite HL, HL'; reflexivity|].
  intros ->. apply (f_equal (fun r => option_map snd (show_multi r))) in E.
  apply (f_equal (fun r => option_map snd (show_rows r))) in E'.
    cbn [show_multi show_rows option_map snd] in E, E'. rewrite <- E' in E. vm_compute in E. discriminate.
Qed.
Print Assumptions C38_equality_refuted.
Example C38_case :
  stream_args None None 5 (Some 10) (Some 20) None (arange 20) (arange 20) 20 10 1 /\
  option_map snd (show_multi (iccorr_multi nW s_world (firstn 20 mframes) None None (Some 5) None None (Some 20) None 1 None (Some 2%Z) (Some 10) false "full" true)) =
    Some [[10; 18; 16; 14; 12]; [0; 0; 0; 0; 0]] /\
  option_map snd (show_rows (ccorr_multi nW no_al no_rs (map fst (firstn 20 mframes)) (map snd (firstn 20 mframes)) None None 1 5 None (Some 2%Z) None None)) =
    Some [[10; 18; 16; 14; 12]; [5; 8; 6; 4; 2]].
Proof. split; [repeat split; try (cbn; lia); auto|]. split; vm_compute; reflexivity. Qed.

(* ------------------------------------------------------------------ *)
(** * C39 *)
(** iacorr with complex results, in the mode "full": the sum of the results on each chunk
    alone. With two or more chunks and regular times it counts, at every delay but zero,
    fewer pairs than acorr. *)
Theorem C39_chunks K (W : nat -> Cx K) w t n chunk_size count len method T1 total h D m norm nm auto stats frames :
  stream_args t None n chunk_size count len T1 T1 total h D -> method_arg method m -> m <> "diff" ->
  _default_norm norm m false = Ok nm -> method_fits W m T1 T1 h (h * 2 ^ D) n ->
  (forall a b, a < b -> b < h * 2 ^ D -> (nth a T1 0 < nth b T1 0)%Z) -> h * 2 ^ D <= length frames ->
  exists d b v, iacorr_complex W w frames t (Some n) norm method count len chunk_size auto "full" stats = Ok (d, b, v) /\
    forall al m', m' <> "diff" -> (forall c, c < 2 ^ D -> call_fits W m' (chunk_times h c T1) (chunk_times h c T1) n) ->
      sum_of_chunks (cmon K) (2 ^ D) (fun c =>
        acorr_complex W al (chunk_part h c (stream_signal auto h (h * 2 ^ D) frames)) (Some (chunk_times h c T1)) None (Some n) norm (Some m') None) d.
Proof.
  intros HA HM Hd HN HF HT HL.
  destruct (@iacorr_complex_chunks K W w t None n chunk_size count len method "full" T1 T1 total h D m norm nm auto stats ltac:(split; auto) frames eq_refl HN HF HL Hd HT) as (d & b & v & E & _ & _ & HS).
  exists d, b, v. auto.
Qed.
Print Assumptions C39_chunks.
Theorem C39_counts_smaller K (W : nat -> Cx K) w n chunk_size count len method total h D m norm nm auto stats frames :
  regular_args n chunk_size count len total h D -> 0 < D -> method_arg method m -> m <> "diff" -> (m = "fft" -> all_roots W) ->
  _default_norm norm m false = Ok nm -> h * 2 ^ D <= length frames ->
  exists d b v, iacorr_complex W w frames None (Some n) norm method count len chunk_size auto "full" stats = Ok (d, b, v) /\
    forall al, exists d', acorr_complex W al (stream_signal auto h (h * 2 ^ D) frames) None None (Some n) norm (Some m) None = Ok d' /\
      forall i, i < n -> nth i (data_count (cmon K) d') 0 = nth i (data_count (cmon K) d) 0 + missing_auto h (h * 2 ^ D) (arange total) i /\
        (0 < i -> nth i (data_count (cmon K) d) 0 < nth i (data_count (cmon K) d') 0).
Proof.
  intros HA HP HM Hd HW HN HL. assert (HS := regular_stream HA). destruct HA as (_ & _ & Hn & Hh & HD).
  assert (HC : stream_call None None n chunk_size count len method "full" (arange total) (arange total) total h D m) by (split; auto). destruct HM as [Hm HM].
  destruct (@iacorr_complex_chunks K W w None None n chunk_size count len method "full" (arange total) (arange total) total h D m norm nm auto stats HC frames eq_refl HN) as (d & b & v & E & _ & HCn & _); auto.
  { apply fits_regular with (n := n); auto; lia. }
  { apply increasing_regular with (n := n); lia. }
  exists d, b, v. split; [exact E|]. intros al.
  destruct (@acorr_complex_whole K W w None n chunk_size count len method "full" (arange total) total h D m m norm nm auto frames al HC HL) as (d' & E' & HC'); auto.
  { apply nodup_regular with (n := n); lia. }
  { apply whole_regular with (n := n); auto; try lia. pose proof (pow_pos D). nia. }
  exists d'. split; [exact E'|]. intros i Hi. rewrite HC', HCn, auto_pairs_split by exact Hi. split; [reflexivity|]. intros H0.
  pose proof (@missing_regular total h D i ltac:(lia) HP ltac:(lia)). lia.
Qed.
Print Assumptions C39_counts_smaller.
Definition show_ccnt (d : cdata QcF (Cx QcF)) : list nat := match d with DCorr _ c _ _ _ => c | DDiff _ c _ _ => c | DBad => [] end.
Example C39_case :
  regular_args 3 (Some 4) None (Some 10) 10 4 1 /\
  match iacorr_complex nW s_world sf1 None (Some 3) (Some NORM_STANDARD) None None (Some 10) (Some 4) false "full" true with Ok (d, _, _) => show_ccnt d | Raise _ => [] end = [8; 6; 4] /\
  match acorr_complex nW true (firstn 8 sf1) None None (Some 3) (Some NORM_STANDARD) None None with Ok d => show_ccnt d | Raise _ => [] end = [8; 7; 6].
Proof. split; [repeat split; try (cbn; lia); auto|]. split; vm_compute; reflexivity. Qed.

(* ------------------------------------------------------------------ *)
(** * C40 *)
(** With BINNING_FIRST the buffers hold the last frame of each block. *)
Theorem C40_buffer (G : QGrp) r x n levels chunk buf : 0 < levels -> 0 < chunk -> (1 < levels -> chunk mod 2 = 0) ->
  length buf = levels -> (forall j, j < levels -> length (nth j buf []) = chunk) ->
  forall j k, j < levels -> (k + 1) * 2 ^ j <= n -> n / 2 ^ j <= k + chunk ->
    nth (k mod chunk) (nth j (fill G BINNING_FIRST r x n buf) []) (m0 G) = x ((k + 1) * 2 ^ j - 1).
Proof.
  intros H1 H2 H3 H4 H5 j k Hj Hk1 Hk2. destruct (@fill_holds G BINNING_FIRST r x n levels chunk buf H1 H2 H3 H4 H5) as [_ H].
  destruct (H j Hj) as [_ HB]. rewrite <- (binned_first G r). apply HB; assumption.
Qed.
Print Assumptions C40_buffer.
(** Level [l] of iccorr_multi is the correlation of the last frames of the blocks; level
    [l] of ccorr_multi is the correlation of the first frames. *)
Theorem C40_levels K (W : nat -> Cx K) w t1 t2 level period chunk_size count len method binning nlevel T1 T2 total h D m norm nm auto stats frames :
  stream_args t1 t2 level chunk_size count len T1 T2 total h D -> _default_method_and_binning method binning = Ok (m, BINNING_FIRST) ->
  0 < period -> (0 <= nlevel)%Z -> method_fits W m T1 T2 h (h * 2 ^ D) (period * level) -> (m = "fft" -> all_roots W) ->
  given t1 = given t2 -> _default_norm norm m true = Ok nm -> h * 2 ^ D <= length frames ->
  let s1 := stream_signal auto h (h * 2 ^ D) (map fst frames) in
  let s2 := stream_signal auto h (h * 2 ^ D) (map snd frames) in
  let row := MultiModel.slow_row K (f0 K) false true (negb (String.eqb m "diff")) nm level in
  exists fast slow b v,
    iccorr_multi W w frames t1 t2 (Some level) norm method count len period binning (Some nlevel) chunk_size auto "full" stats = Ok ((fast, slow), b, v) /\
    (forall l, 0 < l <= length slow -> l <= D -> forall al,
      ccorr W al (block_lasts (cgrp K) l s1) (block_lasts (cgrp K) l s2) None None (Some level) (Some nm) (Some m)
        (option_map (block_lasts (fgrp K) l) (squares_arg nm m s1)) (option_map (block_lasts (fgrp K) l) (squares_arg nm m s2)) (Some row) = Ok (nth (l - 1) slow DBad)) /\
    forall aligned rs u1 u2 p fast' slow',
      ccorr_multi W aligned rs s1 s2 u1 u2 p level binning (Some nlevel) norm method = Ok (fast', slow') ->
      forall l, 0 < l <= length slow' ->
        ccorr W (aligned l) (block_firsts (cgrp K) l s1) (block_firsts (cgrp K) l s2) None None (Some level) (Some nm) (Some m)
          (option_map (block_firsts (fgrp K) l) (squares_arg nm m s1)) (option_map (block_firsts (fgrp K) l) (squares_arg nm m s2)) (Some row) = Ok (nth (l - 1) slow' DBad).
Proof.
  intros H1 H2 H3 HZ H4 H5 H6 H7 H8. cbv zeta.
  assert (HB : BINNING_FIRST = BINNING_MEAN \/ (BINNING_FIRST = BINNING_FIRST /\ Some nlevel <> None)) by (right; split; [reflexivity|discriminate]).
  destruct (@iccorr_multi_levels K W w t1 t2 level period chunk_size count len method binning (Some nlevel) "full" T1 T2 total h D m BINNING_FIRST norm nm auto stats
    H1 H2 (or_introl eq_refl) H3 HZ HB H4 H5 frames H6 H7 H8 eq_refl) as (fast & slow & b & v & E & _ & HC & _).
  exists fast, slow, b, v. split; [exact E|]. split; [intros l Hl HD al; exact (HC l Hl (or_intror HD) al)|].
  intros aligned rs u1 u2 p fast' slow' HM l Hl. assert (Hl2 : l - 1 < length slow') by lia.
  pose proof (@C29_cross_first K (fmon K) (f0 K) false (ccorr W) aligned rs _ _ _ _ _ _ _ _ _ _ _ _ _ _ HM H2 H7 (l - 1) Hl2) as HS.
  replace (S (l - 1)) with l in HS by lia. exact HS.
Qed.
Print Assumptions C40_levels.
Theorem C40_equality_refuted : exists (w : world QcF) frames level chunk nlevel fast slow b v fast' slow',
  iccorr_multi nW w frames None None (Some level) None None (Some (length frames)) None 1 (Some BINNING_FIRST) (Some nlevel) (Some chunk) false "full" true = Ok ((fast, slow), b, v) /\
  ccorr_multi nW no_al no_rs (map fst frames) (map snd frames) None None 1 level (Some BINNING_FIRST) (Some nlevel) None None = Ok (fast', slow') /\
  slow <> slow'.
Proof.
  exists s_world, (firstn 20 mframes), 5, 5, 1%Z.
  destruct (iccorr_multi nW s_world (firstn 20 mframes) None None (Some 5) None None (Some (length (firstn 20 mframes))) None 1 (Some BINNING_FIRST) (Some 1%Z) (Some 5) false "full" true) as [[[[fast slow] b] v]|e] eqn:E;
    [|exfalso; apply (f_equal show_multi) in E; vm_compute in E; discriminate].
  destruct (ccorr_multi nW no_al no_rs (map fst (firstn 20 mframes)) (map snd (firstn 20 mframes)) None None 1 5 (Some BINNING_FIRST) (Some 1%Z) None None) as [[fast' slow']|e] eqn:E';
    [|exfalso; apply (f_equal show_rows) in E'; vm_compute in E'; discriminate].
  exists fast, slow, b, v, fast', slow'. split; [reflexivity|]. split; [reflexivity|].
  intros ->. apply (f_equal (fun r => option_map (fun x => snd (fst x)) (show_multi r))) in E.
  apply (f_equal (fun r => option_map (fun x => snd (fst x)) (show_rows r))) in E'.
  cbn [show_multi show_rows option_map fst snd] in E, E'. rewrite <- E' in E. vm_compute in E. discriminate.
Qed.
Print Assumptions C40_equality_refuted.
Example C40_case :
  stream_args None None 5 (Some 5) (Some 20) None (arange 20) (arange 20) 20 5 2 /\
  map show (nth 2 (fill (fgrp QcF) BINNING_FIRST (fun _ => false) (fun k => q (Z.of_nat k)) 16 (repeat (repeat (q 50) 4) 3)) []) = [(3, 1); (7, 1); (11, 1); (15, 1)]%Z /\
  map show (block_lasts (fgrp QcF) 2 (map (fun k => q (Z.of_nat k)) (seq 0 16))) = [(3, 1); (7, 1); (11, 1); (15, 1)]%Z /\
  map show (block_firsts (fgrp QcF) 2 (map (fun k => q (Z.of_nat k)) (seq 0 16))) = [(0, 1); (4, 1); (8, 1); (12, 1)]%Z.
Proof. split; [repeat split; try (cbn; lia); auto|]. repeat split; vm_compute; reflexivity. Qed.
