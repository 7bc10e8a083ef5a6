(** Properties C31, C32 and C33: the ring buffer of the streaming functions, and the
    equality of iccorr and ccorr, iacorr and acorr. *)
From Verif Require Import Base Kernels PairSpec CoreModel CoreApi CorrModel CorrSpec NormModel MultiModel MultiSpec MultiProofs CallFresh StreamModel StreamBuffer StreamSpec
  StreamParts StreamInst StreamFits StreamEqual StreamMain StreamMulti StreamMultiMain StreamRegular StreamErrors Examples Prop_Norm1 Prop_Multi.
From Coq Require Import String.
Open Scope string_scope.
Open Scope nat_scope.
Open Scope list_scope.
Local Notation length := List.length.
Set Implicit Arguments.

(* ------------------------------------------------------------------ *)
(** * C31 *)
(** The buffer after [n] frames [x 0], [x 1], ... have been added *)
Definition fill (G : QGrp) (b : Z) (r : nat -> bool) (x : nat -> G) (n : nat) (buf : list (list G)) : list (list G) :=
  for_range 0 n (fun i buf => add_data G b (r i) i (x i) buf) buf.
Lemma fill_holds G b r x n levels chunk buf : 0 < levels -> 0 < chunk -> (1 < levels -> chunk mod 2 = 0) ->
  length buf = levels -> (forall j, j < levels -> length (nth j buf []) = chunk) ->
  holds G b r x levels chunk n (fill G b r x n buf).
Proof.
  intros H1 H2 H3 H4 H5. unfold fill. apply (@for_range_inv (list (list G)) (fun i s => holds G b r x levels chunk i s)); [lia| |].
  - split; [exact H4|]. intros j Hj. split; [apply H5; exact Hj|]. intros k Hk. pose proof (pow_pos j). exfalso. nia.
  - intros i s _ Hs. replace (S i) with (i + 1) by lia. apply add_data_holds; auto.
Qed.
(** After any number [n] of frames, starting from any contents, slot [k mod chunk] of
    level [j] holds the mean of block [k] of [2^j] frames, for the last [chunk] complete
    blocks. *)
Theorem C31_block_means (G : QGrp) r x n levels chunk buf : 0 < levels -> 0 < chunk -> (1 < levels -> chunk mod 2 = 0) ->
  length buf = levels -> (forall j, j < levels -> length (nth j buf []) = chunk) ->
  let buf' := fill G BINNING_MEAN r x n buf in
  length buf' = levels /\ forall j, j < levels -> length (nth j buf' []) = chunk /\
    forall k, (k + 1) * 2 ^ j <= n -> n / 2 ^ j <= k + chunk -> nth (k mod chunk) (nth j buf' []) (m0 G) = block_mean G j x k.
Proof.
  intros H1 H2 H3 H4 H5. cbv zeta. destruct (@fill_holds G BINNING_MEAN r x n levels chunk buf H1 H2 H3 H4 H5) as [HL H]. split; [exact HL|].
  intros j Hj. destruct (H j Hj) as [HR HB]. split; [exact HR|]. intros k Hk1 Hk2. rewrite <- (binned_mean G r). apply HB; assumption.
Qed.
Print Assumptions C31_block_means.
(** When chunk [c] of level [j] is complete, the half that it fills holds the block means
    of this chunk and the other half those of the chunk before. *)
Theorem C31_halves (G : QGrp) r x levels half buf j c : 0 < levels -> 0 < half ->
  length buf = levels -> (forall j, j < levels -> length (nth j buf []) = 2 * half) -> j < levels ->
  let row := nth j (fill G BINNING_MEAN r x ((c + 1) * half * 2 ^ j) buf) [] in
  firstn half (skipn (half * (c mod 2)) row) = map (block_mean G j x) (seq (c * half) half) /\
  (0 < c -> firstn half (skipn (half * ((c + 1) mod 2)) row) = map (block_mean G j x) (seq ((c - 1) * half) half)).
Proof.
  intros H1 H2 H4 H5 Hj. cbv zeta.
  assert (HM : 1 < levels -> (2 * half) mod 2 = 0) by (intros _; rewrite Nat.mul_comm; apply Nat.mod_mul; lia).
  pose proof (@fill_holds G BINNING_MEAN r x ((c + 1) * half * 2 ^ j) levels (2 * half) buf H1 ltac:(lia) HM H4 H5) as H.
  destruct (@holds_chunk G BINNING_MEAN r x levels (2 * half) half j c _ H2 Hj (or_introl eq_refl) H) as [A B].
  unfold slice in A, B. split; [|intros Hc; specialize (B Hc)].
  - etransitivity; [exact A|]. apply map_ext. intros k. apply binned_mean.
  - etransitivity; [exact B|]. apply map_ext. intros k. apply binned_mean.
Qed.
Print Assumptions C31_halves.
Example C31_case :
  let x k := q (Z.of_nat (k * k)) in
  let buf := repeat (repeat (q 7) 4) 3 in
  (forall j, j < 3 -> length (nth j buf []) = 4) /\
  map (map show) (fill (fgrp QcF) BINNING_MEAN (fun _ => false) x 13 buf) =
    [[(144, 1); (81, 1); (100, 1); (121, 1)]; [(145, 2); (221, 2); (41, 2); (85, 2)]; [(7, 2); (63, 2); (183, 2); (7, 1)]]%Z /\
  show (block_mean (fgrp QcF) 2 x 2) = (183, 2)%Z.
Proof. cbv zeta. split; [intros [|[|[|j]]] H; try reflexivity; lia|]. split; vm_compute; reflexivity. Qed.

(* ------------------------------------------------------------------ *)
(** * C32 *)
(** The stream announces [total] frames, and [h * 2^D] of them are processed in chunks of
    [h]. Frames of chunks that are not neighbours are at least [n] apart. Whatever the
    uninitialised arrays [w] hold, iccorr succeeds and ccorr, with the same or another
    method (one of "corr" and "fft", or "diff"), gives the same on these frames. *)
Theorem C32_iccorr K (W : nat -> Cx K) w t1 t2 n chunk_size count len method T1 T2 total h D m norm nm auto stats frames :
  stream_args t1 t2 n chunk_size count len T1 T2 total h D -> method_arg method m -> given t1 = given t2 ->
  _default_norm norm m true = Ok nm -> method_fits W m T1 T2 h (h * 2 ^ D) n -> far_apart T1 T2 h (h * 2 ^ D) n ->
  h * 2 ^ D <= length frames ->
  exists d b v, iccorr W w frames t1 t2 (Some n) norm method count len chunk_size auto "full" stats = Ok (d, b, v) /\
    forall al m', (m = "diff" <-> m' = "diff") -> call_fits W m' (firstn (h * 2 ^ D) T1) (firstn (h * 2 ^ D) T2) n ->
      ccorr W al (stream_signal auto h (h * 2 ^ D) (map fst frames)) (stream_signal auto h (h * 2 ^ D) (map snd frames))
        (kept (h * 2 ^ D) t1) (kept (h * 2 ^ D) t2) (Some n) norm (Some m') None None None = Ok d.
Proof.
  intros HA HM HG HN HF HX HL. assert (HC : stream_call t1 t2 n chunk_size count len method "full" T1 T2 total h D m) by (split; auto).
  destruct (@iccorr_full K W w t1 t2 n chunk_size count len method "full" T1 T2 total h D m norm nm auto stats HC frames HG HN HF HL eq_refl HX) as (d & b & v & E & _ & _ & H).
  exists d, b, v. split; [exact E|exact H].
Qed.
Print Assumptions C32_iccorr.
Theorem C32_iccorr_complex K (W : nat -> Cx K) w t1 t2 n chunk_size count len method T1 T2 total h D m norm nm auto stats frames :
  stream_args t1 t2 n chunk_size count len T1 T2 total h D -> method_arg method m -> m <> "diff" -> given t1 = given t2 ->
  _default_norm norm m true = Ok nm -> method_fits W m T1 T2 h (h * 2 ^ D) n -> far_apart T1 T2 h (h * 2 ^ D) n ->
  h * 2 ^ D <= length frames ->
  exists d b v, iccorr_complex W w frames t1 t2 (Some n) norm method count len chunk_size auto "full" stats = Ok (d, b, v) /\
    forall al m', m' <> "diff" -> call_fits W m' (firstn (h * 2 ^ D) T1) (firstn (h * 2 ^ D) T2) n ->
      ccorr_complex W al (stream_signal auto h (h * 2 ^ D) (map fst frames)) (stream_signal auto h (h * 2 ^ D) (map snd frames))
        (kept (h * 2 ^ D) t1) (kept (h * 2 ^ D) t2) (Some n) norm (Some m') None None None = Ok d.
Proof.
  intros HA HM Hm HG HN HF HX HL. assert (HC : stream_call t1 t2 n chunk_size count len method "full" T1 T2 total h D m) by (split; auto).
  destruct (@iccorr_complex_full K W w t1 t2 n chunk_size count len method "full" T1 T2 total h D m norm nm auto stats HC frames HG HN HF HL Hm eq_refl HX) as (d & b & v & E & _ & _ & H).
  exists d, b, v. split; [exact E|exact H].
Qed.
Print Assumptions C32_iccorr_complex.
(** At regular times it is enough that [n] is not more than the chunk size. *)
Theorem C32_regular K (W : nat -> Cx K) w n chunk_size count len method total h D m norm nm auto stats frames :
  regular_args n chunk_size count len total h D -> method_arg method m -> (m = "fft" -> all_roots W) ->
  _default_norm norm m true = Ok nm -> h * 2 ^ D <= length frames ->
  exists d b v, iccorr W w frames None None (Some n) norm method count len chunk_size auto "full" stats = Ok (d, b, v) /\
    forall al, ccorr W al (stream_signal auto h (h * 2 ^ D) (map fst frames)) (stream_signal auto h (h * 2 ^ D) (map snd frames))
      None None (Some n) norm (Some m) None None None = Ok d.
Proof.
  intros HA HM HW HN HL. assert (HS := regular_stream HA). destruct HA as (_ & _ & Hn & Hh & HD). destruct HM as [Hm HM].
  destruct (@C32_iccorr K W w None None n chunk_size count len method _ _ total h D m norm nm auto stats frames HS) as (d & b & v & E & H); auto.
  - split; assumption.
  - apply fits_regular with (n := n); auto; lia.
  - apply far_regular; lia.
  - exists d, b, v. split; [exact E|]. intros al. apply (H al m); [tauto|]. apply whole_regular with (n := n); auto; try lia. pose proof (pow_pos D). nia.
Qed.
Print Assumptions C32_regular.
Theorem C32_regular_complex K (W : nat -> Cx K) w n chunk_size count len method total h D m norm nm auto stats frames :
  regular_args n chunk_size count len total h D -> method_arg method m -> m <> "diff" -> (m = "fft" -> all_roots W) ->
  _default_norm norm m true = Ok nm -> h * 2 ^ D <= length frames ->
  exists d b v, iccorr_complex W w frames None None (Some n) norm method count len chunk_size auto "full" stats = Ok (d, b, v) /\
    forall al, ccorr_complex W al (stream_signal auto h (h * 2 ^ D) (map fst frames)) (stream_signal auto h (h * 2 ^ D) (map snd frames))
      None None (Some n) norm (Some m) None None None = Ok d.
Proof.
  intros HA HM Hd HW HN HL. assert (HS := regular_stream HA). destruct HA as (_ & _ & Hn & Hh & HD). destruct HM as [Hm HM].
  destruct (@C32_iccorr_complex K W w None None n chunk_size count len method _ _ total h D m norm nm auto stats frames HS) as (d & b & v & E & H); auto.
  - split; assumption.
  - apply fits_regular with (n := n); auto; lia.
  - apply far_regular; lia.
  - exists d, b, v. split; [exact E|]. intros al. apply (H al m); [assumption|]. apply whole_regular with (n := n); auto; try lia. pose proof (pow_pos D). nia.
Qed.
Print Assumptions C32_regular_complex.
Definition s_world : world QcF := {|
  w_aligned := fun _ => true; w_rs := fun _ => false; w_rs_bg := fun _ => true; w_rs_tail := fun _ => false;
  w_e1 := fun _ _ => cz 5 6; w_e2 := fun _ _ => cz 7 8; w_es1 := fun _ _ => q 9; w_es2 := fun _ _ => q 10;
  w_bg := (cz 1 2, cz 3 4); w_var := (q 5, q 6) |}.
Definition sf1 := map (fun k => cz (Z.of_nat k * Z.of_nat k) (Z.of_nat k)) (seq 0 10).
Definition sf2 := map (fun k => cz 1 (Z.of_nat k * 3 - 5)) (seq 0 10).
Definition sframes := combine sf1 sf2.
Definition show_iter (r : res (cdata QcF QcF * (Cx QcF * Cx QcF) * (QcF * QcF))) :=
  match r with Ok (d, b, v) => Some (show_cor d, show_cnt d, (showc (fst b), showc (snd b)), (show (fst v), show (snd v))) | Raise _ => None end.
(** ten frames announced and ten frames given, eight of them processed in chunks of four *)
Example C32_case :
  regular_args 3 (Some 4) None (Some 10) 10 4 1 /\ stream_args (Some [0; 2; 3; 7; 9; 11]%Z) (Some [0; 1; 3; 7; 8; 11]%Z) 2 (Some 2) None None
    [0; 2; 3; 7; 9; 11]%Z [0; 1; 3; 7; 8; 11]%Z 6 2 1 /\ far_apart [0; 2; 3; 7; 9; 11]%Z [0; 1; 3; 7; 8; 11]%Z 2 4 2 /\
  option_map (fun x => fst (fst x)) (show_iter (iccorr nW s_world sframes None None (Some 3) (Some NORM_STANDARD) None None (Some 10) (Some 4) true "full" true)) =
    option_map (fun x => x) (match ccorr nW false (stream_signal true 4 8 sf1) (stream_signal true 4 8 sf2) None None (Some 3) (Some NORM_STANDARD) (Some "corr") None None None with
    | Ok d => Some (show_cor d, show_cnt d) | Raise _ => None end) /\
  option_map (fun x => snd (fst (fst x))) (show_iter (iccorr nW s_world sframes None None (Some 3) (Some NORM_STANDARD) None None (Some 10) (Some 4) true "full" true)) = Some [8; 14; 12].
Proof.
  split; [repeat split; try (cbn; lia); auto|]. split; [repeat split; try (cbn; lia); auto|].
  split; [intros a b Ha Hb; do 4 (destruct a as [|a]; [do 4 (destruct b as [|b]; [cbn; lia|]); cbn in Hb; lia|]); cbn in Ha; lia|].
  split; vm_compute; reflexivity.
Qed.

(* ------------------------------------------------------------------ *)
(** * C33 *)
Theorem C33_iacorr K (W : nat -> Cx K) w t n chunk_size count len method T1 total h D m norm nm auto stats frames :
  stream_args t None n chunk_size count len T1 T1 total h D -> method_arg method m -> m <> "diff" ->
  _default_norm norm m false = Ok nm -> method_fits W m T1 T1 h (h * 2 ^ D) n ->
  NoDup (firstn (h * 2 ^ D) T1) -> far_apart T1 T1 h (h * 2 ^ D) n -> h * 2 ^ D <= length frames ->
  exists d b v, iacorr W w frames t (Some n) norm method count len chunk_size auto "full" stats = Ok (d, b, v) /\
    forall al m', m' <> "diff" -> call_fits W m' (firstn (h * 2 ^ D) T1) (firstn (h * 2 ^ D) T1) n ->
      acorr W al (stream_signal auto h (h * 2 ^ D) frames) (kept (h * 2 ^ D) t) None (Some n) norm (Some m') None = Ok d.
Proof.
  intros HA HM Hm HN HF HT HX HL. assert (HC : stream_call t None n chunk_size count len method "full" T1 T1 total h D m) by (split; auto).
  destruct (@iacorr_full K W w t None n chunk_size count len method "full" T1 T1 total h D m norm nm auto stats HC frames eq_refl HN HF HL Hm eq_refl HT HX) as (d & b & v & E & _ & _ & H).
  exists d, b, v. split; [exact E|exact H].
Qed.
Print Assumptions C33_iacorr.
Theorem C33_regular K (W : nat -> Cx K) w n chunk_size count len method total h D m norm nm auto stats frames :
  regular_args n chunk_size count len total h D -> method_arg method m -> m <> "diff" -> (m = "fft" -> all_roots W) ->
  _default_norm norm m false = Ok nm -> h * 2 ^ D <= length frames ->
  exists d b v, iacorr W w frames None (Some n) norm method count len chunk_size auto "full" stats = Ok (d, b, v) /\
    forall al, acorr W al (stream_signal auto h (h * 2 ^ D) frames) None None (Some n) norm (Some m) None = Ok d.
Proof.
  intros HA HM Hd HW HN HL. assert (HS := regular_stream HA). destruct HA as (_ & _ & Hn & Hh & HD). destruct HM as [Hm HM].
  destruct (@C33_iacorr K W w None n chunk_size count len method _ total h D m norm nm auto stats frames HS) as (d & b & v & E & H); auto.
  - split; assumption.
  - apply fits_regular with (n := n); auto; lia.
  - apply nodup_regular with (n := n); lia.
  - apply far_regular; lia.
  - exists d, b, v. split; [exact E|]. intros al. apply (H al m); [assumption|]. apply whole_regular with (n := n); auto; try lia. pose proof (pow_pos D). nia.
Qed.
Print Assumptions C33_regular.
Definition show_iauto (r : res (cdata QcF QcF * Cx QcF * QcF)) :=
  match r with Ok (d, b, v) => Some (show_cor d, show_cnt d, showc b, show v) | Raise _ => None end.
Example C33_case :
  regular_args 3 (Some 4) None (Some 10) 10 4 1 /\
  option_map (fun x => fst (fst x)) (show_iauto (iacorr nW s_world sf1 None (Some 3) (Some NORM_STANDARD) None None (Some 10) (Some 4) false "full" true)) =
    (match acorr nW false (firstn 8 sf1) None None (Some 3) (Some NORM_STANDARD) (Some "corr") None with
    | Ok d => Some (show_cor d, show_cnt d) | Raise _ => None end) /\
  option_map (fun x => fst (fst x)) (show_iauto (iacorr nW s_world sf1 None (Some 3) (Some NORM_STANDARD) None None (Some 10) (Some 4) false "full" true)) =
    Some ([(4816, 1); (3360, 1); (2184, 1)]%Z, [8; 7; 6]).
Proof. split; [repeat split; try (cbn; lia); auto|]. split; vm_compute; reflexivity. Qed.
