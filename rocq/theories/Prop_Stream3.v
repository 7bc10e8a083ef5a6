(** Properties C36, C37 and C41: the frames that are processed, the statistics of the
    frames, and calls that never succeed. *)
From Verif Require Import Base Kernels PairSpec CoreModel CoreApi CorrModel CorrSpec NormModel MultiModel MultiSpec MultiProofs MultiLevels CallPairs CallFresh StreamModel StreamBuffer StreamSpec
  StreamLoop StreamParts StreamSetup StreamSingle StreamInst StreamFits StreamEqual StreamMain StreamMulti StreamMultiMain StreamRegular StreamMultiEqual StreamErrors Examples Prop_Norm1 Prop_Multi Prop_Stream1 Prop_Stream2.
From Coq Require Import String.
Open Scope string_scope.
Open Scope nat_scope.
Open Scope list_scope.
Local Notation length := List.length.
Set Implicit Arguments.

(* ------------------------------------------------------------------ *)
(** * C36 *)
(** The count that is announced is the argument [count], else the number of times, else
    the length of the iterator. *)
Theorem C36_frames t1 t2 period level chunk_size binning method count len nlevel mode S0 : 0 < level ->
  stream_setup t1 t2 period (Some level) chunk_size binning method count len nlevel mode = Ok S0 ->
  exists total D, announced t1 count len = Some total /\ s_nframes S0 = s_half S0 * 2 ^ D /\ s_nframes S0 <= total < 2 * s_nframes S0 /\
    (forall c, chunk_size = Some c -> s_half S0 = c) /\ level <= s_half S0.
Proof.
  intros HL HS. destruct (@setup_frames _ _ _ _ _ _ _ _ _ _ _ _ HL HS) as (total & D & H1 & H2 & H3 & H4 & H5 & H6).
  exists total, D. repeat (split; [assumption|]). split; [|exact H5]. intros c ->. exact H6.
Qed.
Print Assumptions C36_frames.
(** All streaming functions run [multi_iter]. Frames after the first [s_nframes S0] are
    not used. *)
Theorem C36_more_frames K V complex cross cc ac w t1 t2 period level chunk_size binning method count len auto nlevel norm stats mode S0 frames more : 0 < level ->
  stream_setup t1 t2 period (Some level) chunk_size binning method count len nlevel mode = Ok S0 -> length frames = s_nframes S0 ->
  @multi_iter K V complex cc ac w cross (frames ++ more) t1 t2 period (Some level) chunk_size binning method count len auto nlevel norm stats mode =
  multi_iter V complex cc ac w cross frames t1 t2 period (Some level) chunk_size binning method count len auto nlevel norm stats mode.
Proof.
  intros HL HS HF. destruct (@setup_frames _ _ _ _ _ _ _ _ _ _ _ _ HL HS) as (total & D & H1 & H2 & H3 & H4 & H5 & H6).
  assert (HP : 0 < s_nframes S0) by (rewrite H2; pose proof (pow_pos D); nia).
  rewrite <- (@iter_firstn K V complex cross cc ac w t1 t2 period (Some level) chunk_size binning method count len auto nlevel norm stats mode S0 (frames ++ more) HS HP).
  rewrite <- HF, firstn_app, Nat.sub_diag, firstn_all. cbn [firstn]. rewrite app_nil_r. reflexivity.
Qed.
Print Assumptions C36_more_frames.
(** With fewer frames no result is returned; if only frames are missing (the call
    would succeed with more of them), the exception is ValueError. *)
Theorem C36_fewer_frames K V complex cross cc ac w t1 t2 period level chunk_size binning method count len auto nlevel norm stats mode S0 frames : 0 < level ->
  stream_setup t1 t2 period (Some level) chunk_size binning method count len nlevel mode = Ok S0 -> length frames < s_nframes S0 ->
  (forall ys, @multi_iter K V complex cc ac w cross frames t1 t2 period (Some level) chunk_size binning method count len auto nlevel norm stats mode <> Ok ys) /\
  forall more ys, 1 < s_nframes S0 ->
    multi_iter V complex cc ac w cross (frames ++ more) t1 t2 period (Some level) chunk_size binning method count len auto nlevel norm stats mode = Ok ys ->
    multi_iter V complex cc ac w cross frames t1 t2 period (Some level) chunk_size binning method count len auto nlevel norm stats mode = Raise ValueError.
Proof.
  intros HL HS HF. split; [intros ys; eapply iter_never_short; eauto|]. intros more ys H1 H. eapply iter_short; eauto.
Qed.
Print Assumptions C36_fewer_frames.
(** The same for a whole function *)
Theorem C36_iccorr_short K (W : nat -> Cx K) w t1 t2 n chunk_size count len method T1 T2 total h D m norm nm auto stats mode frames :
  stream_args t1 t2 n chunk_size count len T1 T2 total h D -> method_arg method m -> mode = "full" \/ mode = "chunk" -> given t1 = given t2 ->
  _default_norm norm m true = Ok nm -> method_fits W m T1 T2 h (h * 2 ^ D) n -> 1 < h * 2 ^ D ->
  (length frames < h * 2 ^ D -> iccorr W w frames t1 t2 (Some n) norm method count len chunk_size auto mode stats = Raise ValueError) /\
  (h * 2 ^ D <= length frames -> exists r, iccorr W w frames t1 t2 (Some n) norm method count len chunk_size auto mode stats = Ok r /\
    iccorr W w (firstn (h * 2 ^ D) frames) t1 t2 (Some n) norm method count len chunk_size auto mode stats = Ok r).
Proof.
  intros HA HM HO HG HN HF H1. assert (HC : stream_call t1 t2 n chunk_size count len method mode T1 T2 total h D m) by (split; auto).
  destruct (call_setup HC) as [bin HS].
  assert (HI : forall fr, h * 2 ^ D <= length fr -> exists ys y,
    multi_iter (fmon K) false (ccorr W) (acorr W) w true fr t1 t2 1 (Some n) chunk_size None method count len auto (Some 0%Z) (Some nm) stats mode = Ok (ys ++ [y])).
  { intros fr HL. destruct (@cross_real K W w t1 t2 n chunk_size count len method mode T1 T2 total h D m nm auto stats HC fr HF (norm_resolved _ _ _ HN) HL) as (b & ys & y & E & _). eauto. }
  assert (HE : _default_norm norm (match method with Some m => m | None => "" end) true = Ok nm) by (rewrite (norm_early norm true HM); exact HN).
  split; intros HL.
  - unfold iccorr, iccorr_gen. rewrite (xorb_same HG), HE. cbn [bind].
    destruct (HI (frames ++ repeat (c0 K, c0 K) (h * 2 ^ D)) ltac:(rewrite app_length, repeat_length; lia)) as (ys & y & E).
    rewrite (@iter_short K (fmon K) false true (ccorr W) (acorr W) w t1 t2 1 (Some n) chunk_size None method count len auto (Some 0%Z) (Some nm) stats mode _ frames _ _ HS E H1 HL). reflexivity.
  - unfold iccorr, iccorr_gen. rewrite (xorb_same HG), HE. cbn [bind].
    destruct (HI frames HL) as (ys & y & E). pose proof (@iter_firstn K (fmon K) false true (ccorr W) (acorr W) w t1 t2 1 (Some n) chunk_size None method count len auto (Some 0%Z) (Some nm) stats mode _ frames HS ltac:(cbn [s_nframes single]; lia)) as EF.
    cbn [s_nframes single] in EF. rewrite EF, E. cbn [bind]. rewrite last_yield_app. cbn [bind]. destruct y as [[[f s] b] v]. eauto.
Qed.
Print Assumptions C36_iccorr_short.
Example C36_case :
  (exists S0, stream_setup None None 1 (Some 3) (Some 4) None None (Some 13) None (Some 0%Z) "full" = Ok S0 /\ s_nframes S0 = 8) /\
  (exists S0, stream_setup None None 1 (Some 3) None None None None (Some 1000) (Some 0%Z) "full" = Ok S0 /\ s_half S0 = 125 /\ s_nframes S0 = 1000) /\
  iccorr nW s_world (firstn 7 sframes) None None (Some 3) (Some NORM_STANDARD) None (Some 10) None (Some 4) false "full" true = Raise ValueError /\
  show_iter (iccorr nW s_world (firstn 8 sframes) None None (Some 3) (Some NORM_STANDARD) None (Some 10) None (Some 4) false "full" true) =
  show_iter (iccorr nW s_world sframes None None (Some 3) (Some NORM_STANDARD) None (Some 10) None (Some 4) false "full" true) /\
  show_iter (iccorr nW s_world sframes None None (Some 3) (Some NORM_STANDARD) None (Some 10) None (Some 4) false "full" true) <> None.
Proof.
  split; [eexists; split; vm_compute; reflexivity|]. split; [eexists; split; [vm_compute; reflexivity|split; reflexivity]|].
  split; [vm_compute; reflexivity|]. split; [vm_compute; reflexivity|]. vm_compute. discriminate.
Qed.

(* ------------------------------------------------------------------ *)
(** * C37 *)
(** The values that are yielded with chunk number [c] (the last, final value comes after
    all chunks): mean and variance of the frames of the chunks up to [c]. *)
Definition mean_and_variance (K : Fld) (auto : bool) (h k : nat) (frames : list (Cx K * Cx K)) (b : Cx K * Cx K) (v : K * K) : Prop :=
  let s := stream_signal auto h k in
  b = (list_mean (s (map fst frames)), list_mean (s (map snd frames))) /\
  v = (list_variance (s (map fst frames)), list_variance (s (map snd frames))).
Definition mean_and_variance1 (K : Fld) (auto : bool) (h k : nat) (frames : list (Cx K)) (b : Cx K * Cx K) (v : K * K) : Prop :=
  fst b = list_mean (stream_signal auto h k frames) /\ fst v = list_variance (stream_signal auto h k frames).
Definition all_statistics (K : Fld) (V : CMon) (h D : nat) (P : nat -> Cx K * Cx K -> K * K -> Prop) (ys : list (yielded K V)) : Prop :=
  length ys = 2 ^ D + 1 /\
  (forall c y, c < 2 ^ D -> nth_error ys c = Some y -> P ((c + 1) * h) (snd (fst y)) (snd y)) /\
  (forall y, nth_error ys (2 ^ D) = Some y -> P (h * 2 ^ D) (snd (fst y)) (snd y)).
Lemma all_statistics_app K V h D (P : nat -> Cx K * Cx K -> K * K -> Prop) (ys : list (yielded K V)) y d :
  length ys = 2 ^ D -> (forall c, c < length ys -> P ((c + 1) * h) (snd (fst (nth c ys d))) (snd (nth c ys d))) -> P (h * 2 ^ D) (snd (fst y)) (snd y) ->
  all_statistics h D P (ys ++ [y]).
Proof.
  intros HL H1 H2. split; [rewrite app_length; cbn; lia|]. split.
  - intros c y' Hc E. rewrite nth_error_app1 in E by lia. rewrite <- HL in Hc. specialize (H1 c Hc). apply nth_error_nth with (d := d) in E. rewrite E in H1. exact H1.
  - intros y' E. rewrite nth_error_app2 in E by lia. rewrite HL, Nat.sub_diag in E. injection E as <-. exact H2.
Qed.
Theorem C37_cross K (W : nat -> Cx K) w t1 t2 n chunk_size count len method T1 T2 total h D m nm auto mode frames :
  stream_args t1 t2 n chunk_size count len T1 T2 total h D -> method_arg method m -> mode = "full" \/ mode = "chunk" ->
  _default_norm (Some nm) m true = Ok nm -> method_fits W m T1 T2 h (h * 2 ^ D) n -> h * 2 ^ D <= length frames ->
  (exists ys, multi_iter (fmon K) false (ccorr W) (acorr W) w true frames t1 t2 1 (Some n) chunk_size None method count len auto (Some 0%Z) (Some nm) true mode = Ok ys /\
    all_statistics h D (fun k => mean_and_variance auto h k frames) ys) /\
  (m <> "diff" ->
   exists ys, multi_iter (cmon K) true (ccorr_complex W) (acorr_complex W) w true frames t1 t2 1 (Some n) chunk_size None method count len auto (Some 0%Z) (Some nm) true mode = Ok ys /\
    all_statistics h D (fun k => mean_and_variance auto h k frames) ys).
Proof.
  intros HA HM HO HN HF HL. assert (HC : stream_call t1 t2 n chunk_size count len method mode T1 T2 total h D m) by (split; auto).
  destruct (call_facts HC) as (F1 & F2 & F3 & F4 & F5 & F6).
  assert (HS : forall bin k b v, 0 < k -> k <= length frames -> statistics true (single m bin T1 T2 h n (h * 2 ^ D)) auto (fun k => nth k frames (c0 K, c0 K)) k b v -> mean_and_variance auto h k frames b v).
  { intros bin k b v H0 H1 HS. destruct (@statistics_lists K W t1 t2 n chunk_size count len method mode T1 T2 total h D m HC true auto bin (w_rs w) (w_rs_bg w) frames HL k b v H0 H1 HS) as (A & B & C').
    destruct (C' eq_refl) as [A' B']. destruct b, v. cbn [fst snd] in *. subst. split; reflexivity. }
  split.
  - destruct (@cross_real K W w t1 t2 n chunk_size count len method mode T1 T2 total h D m nm auto true HC frames HF HN HL) as (bin & ys & y & E & HY & _ & HP & HE).
    rewrite F6 in HY. eexists. split; [exact E|]. eapply all_statistics_app; [exact HY| |].
    + intros c Hc. destruct (HP c Hc) as [_ X]. assert (Hc' : c < 2 ^ D) by (rewrite <- HY; exact Hc). assert ((c + 1) * h <= 2 ^ D * h) by (apply Nat.mul_le_mono_r; lia). apply (HS bin); [lia|lia|apply X; reflexivity].
    + apply (HS bin); [lia|lia|apply HE; reflexivity].
  - intros Hd. destruct (@cross_complex K W w t1 t2 n chunk_size count len method mode T1 T2 total h D m nm auto true HC frames Hd HF HN HL) as (bin & ys & y & E & HY & _ & HP & HE).
    rewrite F6 in HY. eexists. split; [exact E|]. eapply all_statistics_app; [exact HY| |].
    + intros c Hc. destruct (HP c Hc) as [_ X]. assert (Hc' : c < 2 ^ D) by (rewrite <- HY; exact Hc). assert ((c + 1) * h <= 2 ^ D * h) by (apply Nat.mul_le_mono_r; lia). apply (HS bin); [lia|lia|apply X; reflexivity].
    + apply (HS bin); [lia|lia|apply HE; reflexivity].
Qed.
Print Assumptions C37_cross.
Theorem C37_auto K (W : nat -> Cx K) w t n chunk_size count len method T1 total h D m nm auto mode frames :
  stream_args t None n chunk_size count len T1 T1 total h D -> method_arg method m -> mode = "full" \/ mode = "chunk" -> m <> "diff" \/ mode = "chunk" ->
  _default_norm (Some nm) m false = Ok nm -> method_fits W m T1 T1 h (h * 2 ^ D) n -> NoDup (firstn (h * 2 ^ D) T1) -> h * 2 ^ D <= length frames ->
  exists ys, multi_iter (fmon K) false (ccorr W) (acorr W) w false (map (fun x => (x, c0 K)) frames) t None 1 (Some n) chunk_size None method count len auto (Some 0%Z) (Some nm) true mode = Ok ys /\
    all_statistics h D (fun k => mean_and_variance1 auto h k frames) ys.
Proof.
  intros HA HM HO Hd HN HF HT HL. assert (HC : stream_call t None n chunk_size count len method mode T1 T1 total h D m) by (split; auto).
  destruct (call_facts HC) as (F1 & F2 & F3 & F4 & F5 & F6). set (pairs := map (fun x : Cx K => (x, c0 K)) frames).
  assert (HLp : h * 2 ^ D <= length pairs) by (unfold pairs; rewrite map_length; exact HL).
  assert (HE1 : map fst pairs = frames) by (unfold pairs; rewrite map_map; apply map_id).
  assert (HS : forall bin k b v, 0 < k -> k <= length frames -> statistics false (single m bin T1 T1 h n (h * 2 ^ D)) auto (fun k => nth k pairs (c0 K, c0 K)) k b v -> mean_and_variance1 auto h k frames b v).
  { intros bin k b v H0 H1 HS. destruct (@statistics_lists K W t None n chunk_size count len method mode T1 T1 total h D m HC false auto bin (w_rs w) (w_rs_bg w) pairs HLp k b v H0 ltac:(unfold pairs; rewrite map_length; exact H1) HS) as (A & B & _).
    rewrite HE1 in A, B. split; assumption. }
  destruct (@auto_real K W w t None n chunk_size count len method mode T1 T1 total h D m nm auto true HC pairs Hd eq_refl HT HF HN HLp) as (bin & ys & y & E & HY & _ & HP & HE).
  rewrite F6 in HY. eexists. split; [exact E|]. eapply all_statistics_app; [exact HY| |].
  + intros c Hc. destruct (HP c Hc) as [_ X]. assert (Hc' : c < 2 ^ D) by (rewrite <- HY; exact Hc). assert ((c + 1) * h <= 2 ^ D * h) by (apply Nat.mul_le_mono_r; lia). apply (HS bin); [lia|lia|apply X; reflexivity].
  + apply (HS bin); [lia|lia|apply HE; reflexivity].
Qed.
Print Assumptions C37_auto.
Theorem C37_multi K (W : nat -> Cx K) w t1 t2 level period chunk_size count len method binning nlevel mode T1 T2 total h D m bin norm nm auto frames :
  stream_args t1 t2 level chunk_size count len T1 T2 total h D -> _default_method_and_binning method binning = Ok (m, bin) -> mode = "full" \/ mode = "chunk" ->
  0 < period -> nlevel_ok nlevel -> bin = BINNING_MEAN \/ (bin = BINNING_FIRST /\ nlevel <> None) -> method_fits W m T1 T2 h (h * 2 ^ D) (period * level) -> (m = "fft" -> all_roots W) ->
  given t1 = given t2 -> _default_norm norm m true = Ok nm -> h * 2 ^ D <= length frames ->
  exists ys, multi_iter (fmon K) false (ccorr W) (acorr W) w true frames t1 t2 period (Some level) chunk_size binning method count len auto nlevel norm true mode = Ok ys /\
    all_statistics h D (fun k => mean_and_variance auto h k frames) ys.
Proof.
  intros HA HM HO HP HNl HB HF HR HG HN HL.
  assert (HC : stream_call t1 t2 level chunk_size count len method mode T1 T2 total h D m) by (split; auto; eapply default_method_arg; exact HM).
  destruct (call_facts HC) as (F1 & F2 & F3 & F4 & F5 & F6).
  destruct (@iccorr_multi_run K W w t1 t2 level period chunk_size count len method binning nlevel mode T1 T2 total h D m bin norm nm auto true
    HA HM HO HP HNl HB HF HR frames HG HN HL) as (ys & fast & slow & b & v & E & _ & HY & _ & _ & _ & _ & HS1 & HS2).
  assert (HS : forall k b v, 0 < k -> k <= length frames -> statistics true (multi m bin T1 T2 h level period D (h * 2 ^ D) nlevel) auto (fun k => nth k frames (c0 K, c0 K)) k b v -> mean_and_variance auto h k frames b v).
  { intros k b' v' H0 H1 HS. destruct (@statistics_lists K W t1 t2 level chunk_size count len method mode T1 T2 total h D m HC true auto bin (w_rs w) (w_rs_bg w) frames HL k b' v' H0 H1 HS) as (A & B & C').
    destruct (C' eq_refl) as [A' B']. destruct b', v'. cbn [fst snd] in *. subst. split; reflexivity. }
  eexists. split; [exact E|]. eapply all_statistics_app; [exact HY| |].
  + intros c Hc. assert (Hc' : c < 2 ^ D) by (rewrite <- HY; exact Hc). assert ((c + 1) * h <= 2 ^ D * h) by (apply Nat.mul_le_mono_r; lia). apply HS; [lia|lia|apply (HS1 c Hc eq_refl)].
  + apply HS; [lia|lia|apply HS2; reflexivity].
Qed.
Print Assumptions C37_multi.
Definition show_stats (r : res (list (yielded QcF QcF))) :=
  match r with Ok ys => map (fun y => (showc (fst (snd (fst y))), show (fst (snd y)))) ys | Raise _ => [] end.
(** chunks of two frames 0, 1+i, 4+2i, 9+3i: mean and variance after each chunk *)
Example C37_case :
  stream_args None None 2 (Some 2) None (Some 4) (arange 4) (arange 4) 4 2 1 /\
  show_stats (multi_iter (fmon QcF) false (ccorr nW) (acorr nW) s_world true sframes None None 1 (Some 2) (Some 2) None None None (Some 4) false (Some 0%Z) (Some NORM_STANDARD) true "full") =
    [(((1, 2), (1, 2)), (1, 2)); (((7, 2), (3, 2)), (27, 2)); (((7, 2), (3, 2)), (27, 2))]%Z.
Proof. split; [repeat split; try (cbn; lia); auto|]. vm_compute. reflexivity. Qed.

(* ------------------------------------------------------------------ *)
(** * C41 *)
(** norm=0, the default of iacorr *)
Theorem C41_default_norm K (W : nat -> Cx K) w frames t n method count len chunk_size auto mode stats :
  iacorr W w frames t n (Some 0%Z) method count len chunk_size auto mode stats = Raise ValueError /\
  iacorr_complex W w frames t n (Some 0%Z) method count len chunk_size auto mode stats = Raise ValueError.
Proof. split; unfold iacorr, iacorr_complex, iacorr_gen; rewrite zero_norm; reflexivity. Qed.
Print Assumptions C41_default_norm.
(** n omitted: no result, and TypeError if the other arguments are valid *)
Theorem C41_n_omitted K (W : nat -> Cx K) w frames f t1 t2 norm method count len chunk_size auto mode stats :
  (forall r, iccorr W w frames t1 t2 None norm method count len chunk_size auto mode stats <> Ok r) /\
  (forall r, iccorr_complex W w frames t1 t2 None norm method count len chunk_size auto mode stats <> Ok r) /\
  (forall r, iacorr W w f t1 None norm method count len chunk_size auto mode stats <> Ok r) /\
  (forall r, iacorr_complex W w f t1 None norm method count len chunk_size auto mode stats <> Ok r).
Proof.
  repeat split; intros r H; unfold iccorr, iccorr_complex, iacorr, iacorr_complex, iccorr_gen, iacorr_gen in H;
    try (destruct (xorb _ _); [discriminate|]); apply bind_ok in H; destruct H as (nm & _ & H); apply bind_ok in H; destruct H as (ys & H & _);
    unfold multi_iter, compute_multi_iter in H; apply bind_ok in H; destruct H as (S0 & HS & _); eapply setup_no_level; exact HS.
Qed.
Print Assumptions C41_n_omitted.
Theorem C41_n_omitted_type_error K (W : nat -> Cx K) w frames f t1 t2 norm method m count len chunk_size auto mode stats T :
  method_arg method m -> mode = "full" \/ mode = "chunk" ->
  (given t1 = given t2 -> _inspect_t1_t2_count t1 t2 count len = Ok T -> (exists nm, _default_norm norm m true = Ok nm) ->
    iccorr W w frames t1 t2 None norm method count len chunk_size auto mode stats = Raise TypeError /\
    iccorr_complex W w frames t1 t2 None norm method count len chunk_size auto mode stats = Raise TypeError) /\
  (_inspect_t1_t2_count t1 None count len = Ok T -> (exists nm, _default_norm norm m false = Ok nm) ->
    iacorr W w f t1 None norm method count len chunk_size auto mode stats = Raise TypeError /\
    iacorr_complex W w f t1 None norm method count len chunk_size auto mode stats = Raise TypeError).
Proof.
  intros HM HO. destruct (method_binning HM) as [bin HB]. split.
  - intros HG HT [nm HN]. rewrite <- (norm_early norm true HM) in HN.
    split; unfold iccorr, iccorr_complex, iccorr_gen; rewrite (xorb_same HG), HN; cbn [bind]; unfold multi_iter, compute_multi_iter;
      rewrite (@setup_no_level_raises t1 t2 1 chunk_size None method count len (Some 0%Z) mode T (m, bin) HO HB HT); reflexivity.
  - intros HT [nm HN]. rewrite <- (norm_early norm false HM) in HN.
    split; unfold iacorr, iacorr_complex, iacorr_gen; rewrite HN; cbn [bind]; unfold multi_iter, compute_multi_iter;
      rewrite (@setup_no_level_raises t1 None 1 chunk_size None method count len (Some 0%Z) mode T (m, bin) HO HB HT); reflexivity.
Qed.
Print Assumptions C41_n_omitted_type_error.
(** A mode other than "full" and "chunk" is refused before any frame is read. *)
Theorem C41_mode K (W : nat -> Cx K) w frames f t1 t2 n period norm binning method count len chunk_size auto nlevel mode stats : mode <> "full" -> mode <> "chunk" ->
  iccorr_multi W w frames t1 t2 n norm method count len period binning nlevel chunk_size auto mode stats = Raise ValueError /\
  iccorr_multi_complex W w frames t1 t2 n norm method count len period binning nlevel chunk_size auto mode stats = Raise ValueError /\
  iacorr_multi W w f t1 n norm method count len period binning nlevel chunk_size auto mode stats = Raise ValueError /\
  iacorr_multi_complex W w f t1 n norm method count len period binning nlevel chunk_size auto mode stats = Raise ValueError /\
  (forall nm, _default_norm norm (match method with Some m => m | None => "" end) true = Ok nm ->
    iccorr W w frames t1 t2 n norm method count len chunk_size auto mode stats = Raise ValueError /\ iccorr_complex W w frames t1 t2 n norm method count len chunk_size auto mode stats = Raise ValueError) /\
  (forall nm, _default_norm norm (match method with Some m => m | None => "" end) false = Ok nm ->
    iacorr W w f t1 n norm method count len chunk_size auto mode stats = Raise ValueError /\ iacorr_complex W w f t1 n norm method count len chunk_size auto mode stats = Raise ValueError).
Proof.
  intros H1 H2. apply String.eqb_neq in H1, H2.
  assert (HS : forall t1 t2 period n binning nlevel, stream_setup t1 t2 period n chunk_size binning method count len nlevel mode = Raise ValueError) by (intros; unfold stream_setup; rewrite H1, H2; reflexivity).
  repeat split; intros; unfold iccorr_multi, iccorr_multi_complex, iacorr_multi, iacorr_multi_complex, iccorr, iccorr_complex, iacorr, iacorr_complex, iccorr_multi_gen, iacorr_multi_gen, iccorr_gen, iacorr_gen;
    try (destruct (xorb _ _); [reflexivity|]); try match goal with H : _default_norm _ _ _ = _ |- _ => rewrite H; cbn [bind] end; unfold multi_iter, compute_multi_iter; rewrite HS; reflexivity.
Qed.
Print Assumptions C41_mode.
(** method "diff" in the mode "full", with two or more chunks *)
Theorem C41_diff_full K (W : nat -> Cx K) w frames t n norm count len chunk_size auto stats S0 : 0 < n ->
  stream_setup t None 1 (Some n) chunk_size None (Some "diff") count len (Some 0%Z) "full" = Ok S0 -> 2 * s_half S0 <= s_nframes S0 ->
  forall r, iacorr W w frames t (Some n) norm (Some "diff") count len chunk_size auto "full" stats <> Ok r.
Proof.
  intros Hn HS H2 r H. unfold iacorr, iacorr_gen in H. apply bind_ok in H. destruct H as (nm & _ & H). apply bind_ok in H. destruct H as (ys & H & _).
  refine (@diff_never K (fmon K) false (ccorr W) (acorr W) w _ (map (fun x => (x, c0 K)) frames) t 1 n chunk_size None count len auto (Some 0%Z) (Some nm) stats ys S0 Hn HS H2 H).
  intros al f t' fs n' norm' aout d. apply acorr_gen_diff.
Qed.
Print Assumptions C41_diff_full.
Example C41_case :
  (exists S0, stream_setup None None 1 (Some 3) (Some 4) None (Some "diff") None (Some 10) (Some 0%Z) "full" = Ok S0 /\ 2 * s_half S0 <= s_nframes S0) /\
  iacorr nW s_world sf1 None (Some 3) None (Some "diff") None (Some 10) (Some 4) false "full" true = Raise UnboundLocalError /\
  iacorr nW s_world sf1 None None (Some NORM_STANDARD) None None (Some 10) (Some 4) false "full" true = Raise TypeError /\
  iacorr nW s_world sf1 None (Some 3) (Some 0%Z) None None (Some 10) (Some 4) false "full" true = Raise ValueError /\
  show_iauto (iacorr nW s_world sf1 None (Some 3) (Some NORM_STANDARD) None None (Some 10) (Some 4) false "full" true) <> None.
Proof.
  split; [eexists; split; [vm_compute; reflexivity|vm_compute; lia]|]. split; [vm_compute; reflexivity|]. split; [vm_compute; reflexivity|]. split; [vm_compute; reflexivity|].
  vm_compute. discriminate.
Qed.
