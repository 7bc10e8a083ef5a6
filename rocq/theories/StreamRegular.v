(** Regular times, and the numbers of pairs in both modes. *)
From Verif Require Import Base Kernels PairSpec KernelProofs PairLemmas RegularProofs CoreModel FftModel FftProofs CoreProofs CoreProofs2 CoreProofs3 CoreApi
  NormModel CorrModel CorrSpec CorrProofs CorrProofs2 PairAcc PairTuple MultiModel MultiSpec MultiProofs StreamModel CallPairs CallFresh StreamBuffer StreamLoop StreamChunk StreamSpec StreamSetup StreamFits StreamIter StreamSingle StreamInst StreamEqual StreamParts StreamMain.
From Coq Require Import String ZifyBool ZifyNat.
Open Scope string_scope.
Open Scope nat_scope.
Open Scope list_scope.
Local Notation length := List.length.
Set Implicit Arguments.

(** Arguments for [total] frames at regular times *)
Definition regular_args (n : nat) (chunk_size count len : option nat) (total h D : nat) : Prop :=
  (count = Some total \/ (count = None /\ len = Some total)) /\ chunk_of chunk_size total n h /\ 0 < n <= h /\ h <= total /\ h * 2 ^ D <= total < 2 * (h * 2 ^ D).
Lemma regular_stream n chunk_size count len total h D : regular_args n chunk_size count len total h D ->
  stream_args None None n chunk_size count len (arange total) (arange total) total h D.
Proof.
  intros (H1 & H2 & H3 & H4 & H5). split; [split; [reflexivity|exact H1]|]. split; [reflexivity|]. split; [reflexivity|].
  rewrite arange_length. split; [lia|]. auto.
Qed.
Lemma arange_nth total k : k < total -> nth k (arange total) 0%Z = Z.of_nat k.
Proof. intros H. unfold arange. change 0%Z with (Z.of_nat 0). rewrite map_nth, seq_nth by exact H. reflexivity. Qed.

Section Regular.
  Variables (total h D n : nat).
  Notation nf := (h * 2 ^ D).
  Hypothesis Hn : 0 < n <= h.
  Hypothesis Ht : nf <= total.
  Lemma far_regular : far_apart (arange total) (arange total) h nf n.
  Proof.
    intros a b Ha Hb HC. rewrite !arange_nth by lia.
    assert (Hb1 := Nat.div_mod_eq b h). assert (Ha1 := Nat.div_mod_eq a h).
    pose proof (Nat.mod_upper_bound a h ltac:(lia)). pose proof (Nat.mod_upper_bound b h ltac:(lia)).
    destruct Hn as [_ Hn2]. clear - Ha1 Hb1 HC H H0 Hn2. set (qa := a / h) in *. set (qb := b / h) in *.
    destruct HC as [HC|HC].
    - assert (h * (qa + 2) <= h * qb) by (apply Nat.mul_le_mono_l; lia). lia.
    - assert (h * (qb + 2) <= h * qa) by (apply Nat.mul_le_mono_l; lia). lia.
  Qed.
  Lemma increasing_regular : forall a b, a < b -> b < nf -> (nth a (arange total) 0 < nth b (arange total) 0)%Z.
  Proof. intros a b H1 H2. rewrite !arange_nth by lia. lia. Qed.
  Lemma nodup_regular : NoDup (firstn nf (arange total)).
  Proof. rewrite arange_firstn by exact Ht. apply FinFun.Injective_map_NoDup; [intros a b H; lia|apply seq_NoDup]. Qed.
  Lemma chunk_regular c : (c + 1) * h <= nf -> chunk_times h c (arange total) = map Z.of_nat (seq (c * h) h).
  Proof.
    intros H. apply list_nth_ext with (d := 0%Z); unfold chunk_times; rewrite firstn_length, skipn_length, arange_length; [rewrite map_length, seq_length; lia|].
    intros i Hi. rewrite nth_firstn, nth_skipn, arange_nth by lia. rewrite nth_map_seq_from by lia. f_equal. lia.
  Qed.
  Variable K : Fld.
  Variable W : nat -> Cx K.
  Variable m : string.
  Hypothesis Hm : m = "corr" \/ m = "fft" \/ m = "diff".
  Hypothesis Hroots : m = "fft" -> all_roots W.
  Lemma fits_regular N : 0 < N <= h + 1 -> method_fits W m (arange total) (arange total) h nf N.
  Proof.
    intros HN. destruct Hm as [E|[E|E]]; [left; exact E|right; right|right; left; exact E]. split; [exact E|].
    intros c c' H1 H2 H3 H4. rewrite !chunk_regular by assumption. apply regular_fits; auto. lia.
  Qed.
  Lemma whole_regular N : 0 < N <= nf + 1 -> call_fits W m (firstn nf (arange total)) (firstn nf (arange total)) N.
  Proof.
    intros HN. destruct Hm as [E|[E|E]]; [left; exact E|right; right|right; left; exact E]. split; [exact E|].
    rewrite arange_firstn by exact Ht. apply (@regular_fits K W nf 0 0 N); auto; try lia. pose proof (pow_pos D). nia.
  Qed.
  Lemma chunks_fit c N : 0 < N <= h + 1 -> c < 2 ^ D -> call_fits W m (chunk_times h c (arange total)) (chunk_times h c (arange total)) N.
  Proof.
    intros HN Hc. destruct Hm as [E|[E|E]]; [left; exact E|right; right|right; left; exact E]. split; [exact E|].
    rewrite !chunk_regular by nia. apply regular_fits; auto; lia.
  Qed.
End Regular.

(** ** The pairs that are missing in mode "chunk" *)
Lemma filter_split A (p q : A -> bool) (l : list A) :
  length (filter q l) = length (filter (fun x => p x && q x)%bool l) + length (filter (fun x => negb (p x) && q x)%bool l).
Proof. induction l as [|x l IH]; [reflexivity|]. cbn [filter]. destruct (p x), (q x); cbn [andb negb length]; rewrite IH; lia. Qed.
Definition missing_pairs (h nf : nat) (T1 T2 : list Z) (lag : Z -> bool) : nat :=
  length (filter (fun p => negb (fst p / h =? snd p / h)%nat && lag (nth (snd p) T2 0 - nth (fst p) T1 0)%Z)%bool (list_prod (seq 0 nf) (seq 0 nf))).
Definition missing_auto (h nf : nat) (T : list Z) (i : nat) : nat :=
  length (filter (fun p => negb (fst p / h =? snd p / h)%nat && lag_real i (nth (snd p) T 0 - nth (fst p) T 0)%Z)%bool (upairs (seq 0 nf))).
Lemma cross_pairs_split T1 T2 h D lag : cross_pairs T1 T2 h D false lag = cross_pairs T1 T2 h D true lag + missing_pairs h (h * 2 ^ D) T1 T2 lag.
Proof. unfold cross_pairs, missing_pairs. cbn [negb orb]. apply (filter_split (fun p => (fst p / h =? snd p / h)%nat)). Qed.
Lemma auto_pairs_split T h D i : auto_pairs T h D false i = auto_pairs T h D true i + missing_auto h (h * 2 ^ D) T i.
Proof. unfold auto_pairs, missing_auto. cbn [negb orb]. apply (filter_split (fun p => (fst p / h =? snd p / h)%nat)). Qed.

Lemma filter_pos A (p : A -> bool) l x : In x l -> p x = true -> 0 < length (filter p l).
Proof.
  intros H1 H2. assert (H : In x (filter p l)) by (apply filter_In; auto). destruct (filter p l); [destruct H|]. cbn. lia.
Qed.
Lemma upairs_seq a n x y : a <= x -> x <= y -> y < a + n -> In (x, y) (upairs (seq a n)).
Proof.
  revert a. induction n as [|n IH]; intros a H1 H2 H3; [lia|]. cbn [seq upairs]. destruct (Nat.eq_dec x a) as [->|Hx].
  - apply in_app_iff. left. change (a :: seq (S a) n) with (seq a (S n)). apply in_map_iff. exists y. split; [reflexivity|]. apply in_seq. lia.
  - apply in_app_iff. right. apply IH; lia.
Qed.
(** With at least two chunks some pair is missing at every delay but zero. *)
Lemma missing_regular total h D i : 0 < i <= h -> 0 < D -> h * 2 ^ D <= total -> 0 < missing_auto h (h * 2 ^ D) (arange total) i.
Proof.
  intros Hi HD Ht. assert (H2 : 2 * h <= h * 2 ^ D). { destruct D as [|D']; [lia|]. cbn [Nat.pow]. pose proof (pow_pos D'). nia. }
  unfold missing_auto. apply filter_pos with (x := (h - 1, h - 1 + i)); [apply upairs_seq; lia|]. cbn [fst snd].
  rewrite !arange_nth by lia. apply andb_true_iff. split; [|unfold lag_real; lia].
  assert (E1 : (h - 1) / h = 0) by (apply Nat.div_small; lia).
  assert (E2 : (h - 1 + i) / h = 1). { symmetry. apply (Nat.div_unique (h - 1 + i) h 1 (i - 1)); lia. }
  rewrite E1, E2. reflexivity.
Qed.

(** The numbers of pairs that acorr counts on all frames *)
Section Whole.
  Variable K : Fld.
  Variable W : nat -> Cx K.
  Lemma acorr_complex_counts al m nm (v : list (Cx K * K)) t n : oka W m v t n -> m <> "diff" -> _default_norm (Some nm) m false = Ok nm ->
    exists d, acorr_complex W al (map fst v) t (sqarg K nm m (map snd v)) (Some n) (Some nm) (Some m) None = Ok d /\
      forall i, i < n -> nth i (data_count (cmon K) d) 0 = length (usel (lag_real i) (samples v t)).
  Proof.
    intros HO Hm HN. eexists. split; [apply call_acorr_complex_fresh; assumption|]. intros i Hi. apply tuple_count. exact Hi.
  Qed.
  (** acorr with complex results counts every pair of frames. *)
  Theorem acorr_complex_whole (w : world K) t n chunk_size count len method mode T1 total h D m m' norm nm auto frames al :
    stream_call t None n chunk_size count len method mode T1 T1 total h D m -> h * 2 ^ D <= length frames -> NoDup (firstn (h * 2 ^ D) T1) ->
    m' <> "diff" -> _default_norm norm m' false = Ok nm -> call_fits W m' (firstn (h * 2 ^ D) T1) (firstn (h * 2 ^ D) T1) n ->
    exists d, acorr_complex W al (stream_signal auto h (h * 2 ^ D) frames) (kept (h * 2 ^ D) t) None (Some n) norm (Some m') None = Ok d /\
      forall i, i < n -> nth i (data_count (cmon K) d) 0 = auto_pairs T1 h D false i.
  Proof.
    intros HC HL HT Hm HN HF. assert (Hm' := fits_method HF).
    rewrite (@acorr_complex_norm K W al _ _ _ norm nm m' _ _ Hm' HN).
    rewrite <- (@acorr_complex_squares K W al m' nm _ _ _ _ Hm' (norm_resolved _ _ _ HN)).
    destruct (@auto_values K W w t None n chunk_size count len method mode T1 T1 total h D m auto HC frames HL 0%Z) as [E1 E2]. rewrite <- E2, <- E1.
    eexists. split; [apply call_acorr_complex_fresh; [|exact Hm|exact (norm_resolved _ _ _ HN)]|].
    - apply (@kept_oka K W t None n chunk_size count len method mode T1 T1 total h D m HC m'); auto. rewrite map_length, seq_length. reflexivity.
    - intros i Hi. rewrite tuple_count by exact Hi. rewrite (@kept_samples1 K W t None n chunk_size count len method mode T1 T1 total h D m HC). apply usel_length.
  Qed.
End Whole.
