(** C97: streams of frames with any number of axes and the correlations of the same frames in memory; missing frames. *)
From Coq Require Import String ZifyBool ZifyNat.
From Verif Require Import Base Kernels KernelProofs PairSpec CoreModel CoreProofs CoreApi VecModel VecProofs FftModel Examples NormModel CorrModel CorrSpec Prop_Norm1 NormArrayModel NormArrayProofs AxisModel AxisProofs AxisProofs2 AxisProofs3
  MultiModel Prop_Multi LevelArrayModel LevelArrayProofs MultiArrayModel MultiArrayProofs MultiArrayProofs2 MultiArrayProofs3 MultiArrayProofs4 MultiArrayProofs5 Prop_MultiArray StreamModel StreamSpec StreamParts StreamFits StreamRegular Prop_Stream1 Prop_Stream3
  StreamArrayModel StreamArrayProofs StreamArrayProofs2 StreamArrayProofs3 StreamArrayProofs4 StreamArrayProofs5 Prop_StreamArray.
Open Scope string_scope.
Open Scope nat_scope.
Open Scope list_scope.
Local Notation length := List.length.
Set Implicit Arguments.

Lemma first_axis A (f : nd A) N k : shape f = N :: k -> norm_axis (rank f) 0 = Ok 0.
Proof. intros E. unfold rank. rewrite E. cbn [length]. unfold norm_axis. destruct (Z.leb_spec (- Z.of_nat (S (length k))) 0); [|lia]. destruct (Z.ltb_spec 0 (Z.of_nat (S (length k)))); [reflexivity|lia]. Qed.
(** [f] is the array of the frames [frames], time first. *)
Definition array_of (A X : Type) (k : list nat) (part : X -> nd A) (frames : list X) (f : nd A) : Prop :=
  shape f = length frames :: k /\ forall t p x, nth_error frames t = Some x -> at_ f (t :: p) = at_ (part x) p.
Lemma series_frames K X k (part : X -> nd (Cx K)) frames f p : array_of k part frames f -> series f 0 p = map (fun x => at_ (part x) p) frames.
Proof.
  intros (S1 & HX). unfold series. rewrite S1. cbn [nth]. apply nth_ext with (d := c0 K) (d' := c0 K); [rewrite !map_length, seq_length; reflexivity|]. intros t Ht. rewrite map_length, seq_length in Ht.
  destruct (nth_error frames t) as [x|] eqn:En; [|apply nth_error_None in En; lia]. specialize (HX t p x En).
  rewrite (nth_indep _ (c0 K) (at_ f (ins 0 0 p))) by (rewrite map_length, seq_length; exact Ht). rewrite (map_nth (fun i => at_ f (ins 0 i p))), seq_nth by exact Ht. cbn [ins firstn skipn app Nat.add]. etransitivity; [exact HX|]. symmetry. apply nth_error_nth. apply (map_nth_error (fun x => at_ (part x) p) _ _ En).
Qed.
Lemma whole_signal K h N (l : list (Cx K)) : length l = N -> stream_signal false h N l = l.
Proof. intros <-. unfold stream_signal. apply firstn_all. Qed.

(** The complex data of iccorr are those of ccorr with complex = True. *)
Theorem C97_in_memory_complex K (W : nat -> Cx K) w nank nanc n chunk_size count len method total h D m norm nm auto_background stats frames k :
  regular_args n chunk_size count len total h D -> method_arg method m -> m <> "diff" -> (m = "fft" -> all_roots W) -> _default_norm norm m true = Ok nm -> h * 2 ^ D <= length frames ->
  length k <> 1 -> all_shapes k frames -> (exists p, valid p k) ->
  exists d b v, iccorr_complex_nd W w nank nanc frames None None (Some n) norm method count len chunk_size auto_background "full" stats None None = Ok (d, b, v) /\
    (forall p, valid p k -> forall al, ccorr_complex W al (stream_signal auto_background h (h * 2 ^ D) (map (fun x => at_ (fst x) p) frames)) (stream_signal auto_background h (h * 2 ^ D) (map (fun x => at_ (snd x) p) frames))
      None None (Some n) norm (Some m) None None None = Ok (pix d p)) /\
    forall f1 f2 contig contig' align, array_of k fst frames f1 -> array_of k snd frames f2 -> auto_background = false -> length frames = h * 2 ^ D ->
      exists d', ccorr_complex_nd W contig' contig f1 f2 None None 0 (Some n) norm align (Some m) None None None = Ok d' /\ forall p, valid p k -> pix d' p = pix d p.
Proof.
  intros HA HM Hd HW HN HL Hk HF Ex.
  destruct (@C97_iter K W w nank nanc (Some n) norm method count len chunk_size auto_background "full" stats frames k None None Hk HF) as (ws & _ & _ & (R1 & R2)).
  assert (P : forall p, exists d b v, iccorr_complex W (ws p) (map (fun x => (at_ (fst x) p, at_ (snd x) p)) frames) None None (Some n) norm method count len chunk_size auto_background "full" stats = Ok (d, b, v) /\
    forall al, ccorr_complex W al (stream_signal auto_background h (h * 2 ^ D) (map (fun x => at_ (fst x) p) frames)) (stream_signal auto_background h (h * 2 ^ D) (map (fun x => at_ (snd x) p) frames)) None None (Some n) norm (Some m) None None None = Ok d).
  { intros p. destruct (@C32_regular_complex K W (ws p) n chunk_size count len method total h D m norm nm auto_background stats (map (fun x => (at_ (fst x) p, at_ (snd x) p)) frames) HA HM Hd HW HN) as (d & b & v & E & H); [rewrite map_length; exact HL|].
    exists d, b, v. split; [exact E|]. intros al. specialize (H al). rewrite !map_map in H. exact H. }
  destruct (R2 Ex) as ([[d [b1 b2]] [v1 v2]] & ER); [intros p _; destruct (P p) as (d & b & v & E & _); exists (d, b, v); exact E|].
  destruct (R1 _ _ _ _ _ ER) as (_ & _ & HP). exists d, (b1, b2), (v1, v2). split; [exact ER|].
  assert (HC : forall p, valid p k -> forall al, ccorr_complex W al (stream_signal auto_background h (h * 2 ^ D) (map (fun x => at_ (fst x) p) frames)) (stream_signal auto_background h (h * 2 ^ D) (map (fun x => at_ (snd x) p) frames)) None None (Some n) norm (Some m) None None None = Ok (pix d p)).
  { intros p Hp al. destruct (P p) as (d0 & b & v & E & H). rewrite (HP p Hp) in E. apply ok_same in E. injection E as <- _ _. apply H. }
  split; [exact HC|]. intros f1 f2 contig contig' align A1 A2 Ha Hlen.
  pose proof (@ccorr_complex_pixels K W contig contig' f1 f2 None None 0 (Some n) norm align (Some m) None None None 0 (first_axis f1 (proj1 A1))) as H. rewrite (proj1 A1), (proj1 A2) in H. specialize (H eq_refl ltac:(discriminate) ltac:(discriminate) ltac:(discriminate)). change (del 0 (length frames :: k)) with k in H.
  assert (HC' : forall p, valid p k -> forall al, ccorr_complex W al (series f1 0 p) (series f2 0 p) None None (Some n) norm (Some m) None None None = Ok (pix d p)).
  { intros p Hp al. rewrite (series_frames p A1), (series_frames p A2). specialize (HC p Hp al). rewrite Ha, !whole_signal in HC by (rewrite map_length; exact Hlen). exact HC. }
  destruct (ccorr_complex_nd W contig' contig f1 f2 None None 0 (Some n) norm align (Some m) None None None) as [d'|e].
  - exists d'. split; [reflexivity|]. destruct H as (_ & H). intros p Hp. specialize (H p Hp). cbn [option_map] in H. rewrite (HC' p Hp) in H. apply ok_same in H. symmetry. exact H.
  - exfalso. apply (H Ex). intros p Hp. exists (pix d p). cbn [option_map]. apply HC'. exact Hp.
Qed.
Print Assumptions C97_in_memory_complex.
(** iacorr and acorr *)
Theorem C97_in_memory_auto K (W : nat -> Cx K) w nank nanc n chunk_size count len method total h D m norm nm auto_background stats frames k :
  regular_args n chunk_size count len total h D -> method_arg method m -> m <> "diff" -> (m = "fft" -> all_roots W) -> _default_norm norm m false = Ok nm -> h * 2 ^ D <= length frames ->
  length k <> 1 -> Forall (fun x => shape x = k) frames -> (exists p, valid p k) ->
  exists d b v, iacorr_nd W w nank nanc frames None (Some n) norm method count len chunk_size auto_background "full" stats None None = Ok (d, b, v) /\
    (forall p, valid p k -> forall al, acorr W al (stream_signal auto_background h (h * 2 ^ D) (map (fun x => at_ x p) frames)) None None (Some n) norm (Some m) None = Ok (pix d p)) /\
    forall f contig contig' align, array_of k (fun x => x) frames f -> auto_background = false -> length frames = h * 2 ^ D ->
      exists d', acorr_nd W contig' contig f None None 0 (Some n) norm align (Some m) None = Ok d' /\ forall p, valid p k -> pix d' p = pix d p.
Proof.
  intros HA HM Hd HW HN HL Hk HF Ex.
  destruct (@C97_iter_auto K W w nank nanc (Some n) norm method count len chunk_size auto_background "full" stats frames k None Hk HF) as (ws & _ & (R1 & R2)).
  assert (P : forall p, exists d b v, iacorr W (ws p) (map (fun x => at_ x p) frames) None (Some n) norm method count len chunk_size auto_background "full" stats = Ok (d, b, v) /\
    forall al, acorr W al (stream_signal auto_background h (h * 2 ^ D) (map (fun x => at_ x p) frames)) None None (Some n) norm (Some m) None = Ok d).
  { intros p. apply (@C33_regular K W (ws p) n chunk_size count len method total h D m norm nm auto_background stats (map (fun x => at_ x p) frames) HA HM Hd HW HN). rewrite map_length. exact HL. }
  destruct (R2 Ex) as ([[d b] v] & ER); [intros p _; destruct (P p) as (d & b & v & E & _); exists (d, b, v); exact E|].
  destruct (R1 _ _ _ ER) as (_ & _ & HP). exists d, b, v. split; [exact ER|].
  assert (HC : forall p, valid p k -> forall al, acorr W al (stream_signal auto_background h (h * 2 ^ D) (map (fun x => at_ x p) frames)) None None (Some n) norm (Some m) None = Ok (pix d p)).
  { intros p Hp al. destruct (P p) as (d0 & b0 & v0 & E & H). rewrite (HP p Hp) in E. apply ok_same in E. injection E as <- _ _. apply H. }
  split; [exact HC|]. intros f contig contig' align A1 Ha Hlen.
  pose proof (@acorr_pixels K W contig contig' f None None 0 (Some n) norm align (Some m) None 0 (first_axis f (proj1 A1))) as H. rewrite (proj1 A1) in H. specialize (H ltac:(discriminate) ltac:(discriminate)). change (del 0 (length frames :: k)) with k in H.
  assert (HC' : forall p, valid p k -> forall al, acorr W al (series f 0 p) None None (Some n) norm (Some m) None = Ok (pix d p)).
  { intros p Hp al. rewrite (series_frames p A1). specialize (HC p Hp al). rewrite Ha, !whole_signal in HC by (rewrite map_length; exact Hlen). exact HC. }
  destruct (acorr_nd W contig' contig f None None 0 (Some n) norm align (Some m) None) as [d'|e].
  - exists d'. split; [reflexivity|]. destruct H as (_ & H). intros p Hp. specialize (H p Hp). cbn [option_map] in H. rewrite (HC' p Hp) in H. apply ok_same in H. symmetry. exact H.
  - exfalso. apply (H Ex). intros p Hp. exists (pix d p). cbn [option_map]. apply HC'. exact Hp.
Qed.
Print Assumptions C97_in_memory_auto.
(** An empty stream is an error, the one of an empty stream of numbers. *)
Theorem C97_empty K (W : nat -> Cx K) w w1 nank nanc t1 t2 level_size norm method count len period binning nlevel chunk_size auto_background mode stats divisor mask :
  (exists e, iccorr_multi_nd W w nank nanc [] t1 t2 level_size norm method count len period binning nlevel chunk_size auto_background mode stats divisor mask = Raise e /\
    iccorr_multi W w1 [] t1 t2 level_size norm method count len period binning nlevel chunk_size auto_background mode stats = Raise e) /\
  (exists e, iacorr_multi_nd W w nank nanc [] t1 level_size norm method count len period binning nlevel chunk_size auto_background mode stats divisor mask = Raise e /\
    iacorr_multi W w1 [] t1 level_size norm method count len period binning nlevel chunk_size auto_background mode stats = Raise e).
Proof.
  split.
  - unfold iccorr_multi_nd, iccorr_multi, iccorr_multi_gen_nd, iccorr_multi_gen. destruct (xorb _ _); [eexists; split; reflexivity|]. unfold multi_iter_nd, multi_iter, compute_multi_iter_nd, compute_multi_iter.
    destruct (stream_setup _ _ _ _ _ _ _ _ _ _ _) as [S0|e]; cbn [bind]; [|eexists; split; reflexivity]. destruct (0 <? s_nframes S0 - 1); cbn [bind]; eexists; split; reflexivity.
  - unfold iacorr_multi_nd, iacorr_multi, iacorr_multi_gen_nd, iacorr_multi_gen. unfold multi_iter_nd, multi_iter, compute_multi_iter_nd, compute_multi_iter. cbn [map].
    destruct (stream_setup _ _ _ _ _ _ _ _ _ _ _) as [S0|e]; cbn [bind]; [|eexists; split; reflexivity]. destruct (0 <? s_nframes S0 - 1); cbn [bind]; eexists; split; reflexivity.
Qed.
Print Assumptions C97_empty.
(** Fewer frames than are needed are an error. *)
Theorem C97_short K (W : nat -> Cx K) w nank nanc t1 t2 n chunk_size count len method T1 T2 total h D m norm nm auto_background stats mode frames k :
  stream_args t1 t2 n chunk_size count len T1 T2 total h D -> method_arg method m -> mode = "full" \/ mode = "chunk" -> given t1 = given t2 ->
  _default_norm norm m true = Ok nm -> method_fits W m T1 T2 h (h * 2 ^ D) n -> 1 < h * 2 ^ D -> length k <> 1 -> all_shapes k frames -> (exists p, valid p k) -> length frames < h * 2 ^ D ->
  exists e, iccorr_nd W w nank nanc frames t1 t2 (Some n) norm method count len chunk_size auto_background mode stats None None = Raise e.
Proof.
  intros HA HM HO HG HN HF H1 Hk HS (p & Hp) HL.
  destruct (@C97_iter K W w nank nanc (Some n) norm method count len chunk_size auto_background mode stats frames k t1 t2 Hk HS) as (ws & _ & (R1 & _) & _).
  destruct (iccorr_nd W w nank nanc frames t1 t2 (Some n) norm method count len chunk_size auto_background mode stats None None) as [[[d [b1 b2]] [v1 v2]]|e]; [|exists e; reflexivity].
  destruct (R1 _ _ _ _ _ eq_refl) as (_ & _ & E). specialize (E p Hp).
  destruct (@C36_iccorr_short K W (ws p) t1 t2 n chunk_size count len method T1 T2 total h D m norm nm auto_background stats mode (map (fun x => (at_ (fst x) p, at_ (snd x) p)) frames) HA HM HO HG HN HF H1) as (E' & _). rewrite E' in E; [discriminate|rewrite map_length; exact HL].
Qed.
Print Assumptions C97_short.
(** The hypotheses are met by eight and by seven of the frames of [C97_example]. *)
Definition zauto (frames : list (nd (Cx QcF))) mask := iacorr_nd nW zworld (q (-1)) (cz (-1) (-1)) frames None (Some 2) (Some NORM_STANDARD) (Some "corr") (Some 8) None (Some 4) false "full" true None mask.
Example C97_example2 :
  regular_args 2 (Some 4) (Some 8) None 8 4 1 /\ method_arg (Some "corr") "corr" /\ length (zframes 8) = 4 * 2 ^ 1 /\ length (zframes 7) < 4 * 2 ^ 1 /\ all_shapes [2; 2] (zframes 7) /\ valid [1; 0] [2; 2] /\
  zerr (zcross [] None None) = Some ValueError /\ zerr (zcross (zframes 7) None None) = Some ValueError /\
  match zauto (map fst (zframes 8)) (Some ymask) with
  | Ok (d, b, v) => shape b = [2; 2] /\ showc (at_ b [0; 0]) = showc (cz (-1) (-1)) /\ showc (at_ b [0; 1]) <> showc (cz (-1) (-1))
  | Raise _ => False
  end.
Proof.
  split; [repeat split; try (cbn; lia); auto|]. split; [split; [auto|left; reflexivity]|]. split; [reflexivity|]. split; [cbn; lia|]. split; [repeat constructor|]. split; [repeat constructor|].
  split; [vm_compute; reflexivity|]. split; [vm_compute; reflexivity|]. vm_compute. repeat split; discriminate.
Qed.
