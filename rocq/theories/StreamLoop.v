(** The loop over the frames of the streaming functions: what the buffers, the data rows
    and the statistics hold after any number of frames.  The effect of one chunk on a row
    is a hypothesis here; StreamChunk.v proves it for the four functions. *)
From Verif Require Import Base Kernels PairSpec KernelProofs CoreModel FftModel NormModel CorrModel MultiModel MultiSpec MultiProofs StreamModel StreamBuffer.
From Coq Require Import String ZifyBool ZifyNat.
Open Scope string_scope.
Open Scope nat_scope.
Open Scope list_scope.
Local Notation length := List.length.
Set Implicit Arguments.

Lemma fold_left_Sum (M : CMon) A (f : A -> M) l a : fold_left (fun s x => madd M s (f x)) l a = madd M a (Sum M l f).
Proof.
  revert a. induction l as [|x l IH]; intros a; cbn [fold_left].
  - rewrite Sum_nil, madd_0_r. reflexivity.
  - rewrite IH, Sum_cons, madd_assoc. reflexivity.
Qed.

Lemma slice_nth A (d : A) l (f : nat -> A) a n : a + n <= length l -> (forall k, k < n -> nth (a + k) l d = f k) -> slice a n l = map f (seq 0 n).
Proof.
  intros HL H. unfold slice.
  assert (LS : length (firstn n (skipn a l)) = n) by (rewrite firstn_length, skipn_length; lia).
  apply list_nth_ext with (d := d); [rewrite LS, map_length, seq_length; reflexivity|]. rewrite LS. intros k Hk.
  rewrite nth_indep with (l := map _ _) (d' := f 0) by (rewrite map_length, seq_length; exact Hk).
  rewrite map_nth, seq_nth by exact Hk. rewrite <- H by exact Hk. clear - Hk. cbn [Nat.add].
  revert l k Hk. induction a as [|a IH]; intros l k Hk.
  - cbn [skipn Nat.add]. revert k Hk l. induction n as [|n IHn]; [lia|]. intros [|k] Hk [|x l]; cbn; auto. apply IHn. lia.
  - destruct l as [|x l]; cbn [skipn Nat.add nth]; [rewrite firstn_nil; destruct k; reflexivity|]. apply IH, Hk.
Qed.

(** Completing blocks of length [p] *)
Lemma last_of_block i p : 0 < p -> (i mod p =? p - 1) = true -> (i + 1) mod p = 0 /\ (i + 1) / p = i / p + 1 /\ i + 1 = (i / p + 1) * p.
Proof.
  intros HP E. apply Nat.eqb_eq in E. pose proof (Nat.div_mod i p ltac:(lia)) as D. rewrite E in D.
  assert (H : i + 1 = (i / p + 1) * p) by nia. split; [rewrite H; apply Nat.mod_mul; lia|]. split; [|exact H].
  rewrite H at 1. apply Nat.div_mul. lia.
Qed.
Lemma inside_block i p : 0 < p -> (i mod p =? p - 1) = false -> (i + 1) mod p <> 0 /\ (i + 1) / p = i / p.
Proof.
  intros HP E. apply Nat.eqb_neq in E. pose proof (Nat.div_mod i p ltac:(lia)) as D. pose proof (Nat.mod_upper_bound i p ltac:(lia)) as U.
  assert (HM : (i + 1) mod p = i mod p + 1) by (symmetry; apply (Nat.mod_unique _ _ (i / p)); lia).
  split; [lia|]. symmetry. apply (Nat.div_unique _ _ _ (i mod p + 1)); lia.
Qed.

(** All blocks of level [j] of the first [n] frames *)
Lemma binned_means (G : QGrp) r x j n : map (binned G BINNING_MEAN r x j) (seq 0 (n / 2 ^ j)) = block_means G j (map x (seq 0 n)).
Proof.
  unfold block_means. rewrite map_length, seq_length. apply map_ext_in. intros k Hk. apply in_seq in Hk. rewrite binned_mean.
  apply block_mean_ext. intros i Hi. pose proof (pow_pos j) as P.
  assert (i < n). { assert ((k + 1) * 2 ^ j <= n / 2 ^ j * 2 ^ j) by (apply Nat.mul_le_mono_r; lia).
    assert (n / 2 ^ j * 2 ^ j <= n) by (rewrite Nat.mul_comm; apply Nat.mul_div_le; lia). lia. }
  rewrite nth_indep with (d' := x 0) by (rewrite map_length, seq_length; lia). rewrite map_nth, seq_nth by lia. reflexivity.
Qed.

Section Loop.
  Variable K : Fld.
  Notation C := (Cx K).
  Variable V : CMon.
  Variables complex cross : bool.
  Variable cc : bool -> list C -> list C -> option (list Z) -> option (list Z) -> option nat ->
    option Z -> option string -> option (list K) -> option (list K) -> option (cdata K V) -> res (cdata K V).
  Variable ac : bool -> list C -> option (list Z) -> option (list K) -> option nat ->
    option Z -> option string -> option (cdata K V) -> res (cdata K V).
  Variable aligned : nat -> bool.
  Variables rs rs_bg rs_tail : nat -> bool.
  Variables e1 e2 : nat -> nat -> C.
  Variables es1 es2 : nat -> nat -> K.
  Variable ebg : C * C.
  Variable evar : K * K.
  Variable S0 : setup.
  Variable norm : Z.
  Variables full auto_bg stats : bool.
  (** the frames *)
  Variable X : nat -> C * C.
  Notation half := (s_half S0).
  Notation D := (s_decades S0).
  Notation nframes := (s_nframes S0).
  Notation nlevel := (s_nlevel S0).
  Notation b := (s_binning S0).
  Notation correlate := (negb (String.eqb (s_method S0) "diff")).
  Let levels := Nat.max D 1.
  Let chunk := if D =? 0 then half else 2 * half.
  Hypothesis Hhalf : 0 < half.
  Hypothesis Hframes : exists n, nframes = n * half.
  Hypothesis Hsingle : D = 0 -> nframes = half.
  Hypothesis Hnlevel : D <= nlevel + 1.

  (** The mean of the first [n] values *)
  Definition mean_of (n : nat) (f : nat -> C) : C :=
    let s := Sum (cmon K) (seq 0 n) f in (fdiv K (cre s) (fnat K n), fdiv K (cim s) (fnat K n)).
  (** The mean of the square minus the square of the mean *)
  Definition var_of (n : nat) (f : nat -> C) : K :=
    fsub K (fdiv K (Sum (fmon K) (seq 0 n) (fun i => cnorm2 (f i))) (fnat K n)) (cnorm2 (mean_of n f)).

  (** The random choice made for frame [i] and the data that is correlated: the frames,
      or what is left after the mean of the first chunk has been subtracted. *)
  Definition choice (i : nat) : bool := if (auto_bg && (i <? half))%bool then rs_bg i else rs i.
  Definition background : C * C :=
    (mean_of half (fun k => fst (X k)), if cross then mean_of half (fun k => snd (X k)) else c0 K).
  Definition signal (k : nat) : C * C :=
    if auto_bg then (csub (fst (X k)) (fst background), if cross then csub (snd (X k)) (snd background) else snd (X k))
    else X k.
  Definition fst_signal k := fst (signal k).
  Definition snd_signal k := snd (signal k).
  Definition fst_square k := cnorm2 (fst_signal k).
  Definition snd_square k := cnorm2 (snd_signal k).

  Notation st := (sstate K V).
  (** All buffers hold the blocks of the first [n] frames *)
  Definition buffers (n : nat) (s : st) : Prop :=
    holds (cgrp K) b choice fst_signal levels chunk n (fdata1 s) /\
    (cross = true -> holds (cgrp K) b choice snd_signal levels chunk n (fdata2 s)) /\
    holds (fgrp K) b choice fst_square levels chunk n (sq1 s) /\
    (cross = true -> holds (fgrp K) b choice snd_square levels chunk n (sq2 s)).

  Lemma chunk_half : half <= chunk.
  Proof. unfold chunk. destruct (D =? 0); lia. Qed.
  Lemma levels_pos : 0 < levels.
  Proof. unfold levels. lia. Qed.
  Lemma chunk_even : 1 < levels -> chunk mod 2 = 0.
  Proof. unfold levels, chunk. intros H. destruct (Nat.eqb_spec D 0); [lia|]. rewrite Nat.mul_comm. apply Nat.mod_mul. lia. Qed.

  Lemma add_frame_buffers n x s : buffers n s -> fst x = fst_signal n -> (cross = true -> snd x = snd_signal n) ->
    buffers (n + 1) (add_frame cross S0 (choice n) n x s).
  Proof.
    pose proof chunk_half as HC. pose proof levels_pos as HL. pose proof chunk_even as HE.
    intros (B1 & B2 & B3 & B4) E1 E2. unfold buffers, add_frame, with_buffers. cbn [fdata1 fdata2 sq1 sq2]. rewrite E1.
    split; [|split; [|split]].
    - apply add_data_holds; auto. lia.
    - intros H. rewrite H, (E2 H). apply add_data_holds; auto. lia.
    - apply (@add_data_holds (fgrp K) b choice fst_square levels chunk); auto. lia.
    - intros H. rewrite H, (E2 H). apply (@add_data_holds (fgrp K) b choice snd_square levels chunk); auto. lia.
  Qed.

  (** Everything but the buffers *)
  Definition rest (s : st) := (data_fast s, data_slow s, bg s, (sums s, sqsums s, out_bg s, out_var s)).

  (** Frames that are stored but not yet processed, from [a] to [n] *)
  Definition raw (a n : nat) (s : st) : Prop :=
    (forall m, a <= m < n -> nth m (nth 0 (fdata1 s) []) (c0 K) = fst (X m)) /\
    (cross = true -> forall m, a <= m < n -> nth m (nth 0 (fdata2 s) []) (c0 K) = snd (X m)).

  Lemma holds_row0 (G : QGrp) (x : nat -> G) n buf : holds G b choice x levels chunk n buf -> 0 < length buf /\ length (nth 0 buf []) = chunk.
  Proof. intros [H1 H2]. pose proof levels_pos. split; [lia|]. apply (H2 0); lia. Qed.

  Lemma add_frame_rest r i x s : rest (add_frame cross S0 r i x s) = rest s.
  Proof. reflexivity. Qed.

  Lemma remove_ok s : auto_bg = true -> buffers 0 s -> raw 0 half s ->
    buffers half (remove_background cross rs_bg S0 background s) /\ rest (remove_background cross rs_bg S0 background s) = rest s.
  Proof.
    intros HA HB HR. pose proof chunk_half as HC.
    pose proof (@for_range_inv st (fun k s' => buffers k s' /\ raw k half s' /\ rest s' = rest s) 0 half
      (fun i st => add_frame cross S0 (rs_bg i) i (csub (nth i (nth 0 (fdata1 st) []) (c0 K)) (fst background),
         csub (nth i (nth 0 (fdata2 st) []) (c0 K)) (snd background)) st) s) as P.
    destruct P as (P1 & _ & P3); [lia|split; [exact HB|split; [exact HR|reflexivity]]| |split; [exact P1|exact P3]].
    intros k s' Hk (B & (R1 & R2) & E). replace (S k) with (k + 1) by lia.
    assert (EC : rs_bg k = choice k). { unfold choice. rewrite HA. cbn [andb]. replace (k <? half) with true by lia. reflexivity. }
    rewrite EC. split; [|split].
    - apply add_frame_buffers; [exact B| |]; unfold fst_signal, snd_signal, signal; rewrite HA; cbn [fst snd].
      + rewrite R1 by lia. reflexivity.
      + intros HX. rewrite HX, R2 by (auto; lia). reflexivity.
    - destruct B as (B1 & B2 & _). split.
      + intros m Hm. unfold add_frame, with_buffers. cbn [fdata1].
        destruct (holds_row0 B1) as [L1 L2].
        etransitivity; [apply (f_equal (fun l => nth m l (c0 K))); apply (@add_data_level0 (cgrp K) b choice fst_signal); exact L1|].
        rewrite L2, Nat.mod_small by lia. rewrite nth_upd_other by lia. apply R1. lia.
      + intros HX m Hm. unfold add_frame, with_buffers. cbn [fdata2]. rewrite HX.
        destruct (holds_row0 (B2 HX)) as [L1 L2].
        etransitivity; [apply (f_equal (fun l => nth m l (c0 K))); apply (@add_data_level0 (cgrp K) b choice fst_signal); exact L1|].
        rewrite L2, Nat.mod_small by lia. rewrite nth_upd_other by lia. apply R2; [exact HX|lia].
    - rewrite add_frame_rest. exact E.
  Qed.

  (** ** Data rows *)
  (** [row j c]: the row of level [j] after [c] chunks *)
  Variable row : nat -> nat -> cdata K V.
  Hypothesis Hfast0 : row 0 0 = init_row K V complex cross correlate norm (s_fast S0).
  Hypothesis Hslow0 : forall j, row (S j) 0 = init_row K V complex cross correlate norm (s_level S0).
  Hypothesis Hfast : forall c s, (c + 1) * half <= nframes -> buffers ((c + 1) * half) s -> data_fast s = row 0 c ->
    fast_update cross cc ac aligned S0 norm full c s = Ok (row 0 (c + 1)).
  Hypothesis Hslow : forall j c s, 0 < j < D -> (c + 1) * (half * 2 ^ j) <= nframes -> buffers ((c + 1) * (half * 2 ^ j)) s ->
    (let t := arange nframes in
     chunk_update V cross cc ac S0 norm full (aligned j)
       (level_chunk S0 (fdata1 s) j c) (level_chunk S0 (fdata2 s) j c) (level_prev S0 (fdata1 s) j c) (level_prev S0 (fdata2 s) j c)
       (level_chunk S0 (sq1 s) j c) (level_chunk S0 (sq2 s) j c) (level_prev S0 (sq1 s) j c) (level_prev S0 (sq2 s) j c)
       None None (time_chunk S0 t c) (time_chunk S0 t c) (time_chunk S0 t (c - 1)) (time_chunk S0 t (c - 1))
       (s_level S0) (s_fast S0) (s_level S0) (0 <? c) (row j c)) = Ok (row j (c + 1)).

  Definition slow_rows (i : nat) (rows : list (cdata K V)) : Prop :=
    length rows = nlevel /\ (forall l, 0 < l < D -> nth (l - 1) rows DBad = row l (i / (half * 2 ^ l))) /\
    (forall p, D - 1 <= p < nlevel -> nth p rows DBad = row (p + 1) 0).

  Lemma block_pos j : 0 < half * 2 ^ j.
  Proof. pose proof (pow_pos j). nia. Qed.

  Lemma slow_update_ok i s : i < nframes -> buffers (i + 1) s ->
    forall todo j rows, j + todo = Nat.max D 1 -> 0 < j -> length rows = nlevel ->
    (forall l, 0 < l < j -> l < D -> nth (l - 1) rows DBad = row l ((i + 1) / (half * 2 ^ l))) ->
    (forall l, j <= l < D -> nth (l - 1) rows DBad = row l (i / (half * 2 ^ l))) ->
    (forall p, D - 1 <= p < nlevel -> nth p rows DBad = row (p + 1) 0) ->
    exists rows', slow_update cross cc ac aligned S0 norm full todo j i s rows = Ok rows' /\ slow_rows (i + 1) rows'.
  Proof.
    intros Hi HB. induction todo as [|todo IH]; intros j rows HJ Hj HL Hlow Hhigh Hidle; cbn [slow_update].
    - exists rows. split; [reflexivity|]. split; [exact HL|]. split; [|exact Hidle]. intros l Hl. apply Hlow; lia.
    - pose proof (block_pos j) as HP.
      destruct (i mod (half * 2 ^ j) =? half * 2 ^ j - 1) eqn:E.
      + destruct (@last_of_block _ _ HP E) as (EM & ED & EI).
        set (c := i / (half * 2 ^ j)) in *.
        rewrite nth_error_nth' with (d := DBad) by lia. rewrite Hhigh by lia.
        assert (HN : (c + 1) * (half * 2 ^ j) <= nframes) by (rewrite <- EI; lia).
        assert (HB' : buffers ((c + 1) * (half * 2 ^ j)) s) by (rewrite <- EI; exact HB).
        specialize (@Hslow j c s ltac:(lia) HN HB'). cbv zeta in Hslow. fold c. rewrite Hslow. cbn [bind].
        apply IH; [lia|lia|rewrite upd_length; exact HL| | |].
        * intros l Hl HlD. destruct (Nat.eq_dec l j) as [->|N].
          -- rewrite nth_upd_same by lia. rewrite ED. reflexivity.
          -- rewrite nth_upd_other by lia. apply Hlow; lia.
        * intros l Hl. rewrite nth_upd_other by lia. apply Hhigh; lia.
        * intros p Hp. rewrite nth_upd_other by lia. apply Hidle; exact Hp.
      + destruct (@inside_block _ _ HP E) as (EM & ED).
        exists rows. split; [reflexivity|]. split; [exact HL|]. split; [|exact Hidle]. intros l Hl.
        destruct (Nat.lt_ge_cases l j) as [H|H]; [apply Hlow; lia|]. rewrite Hhigh by lia. f_equal. symmetry.
        apply inside_block; [apply block_pos|]. apply Nat.eqb_neq. intros E'. apply EM.
        destruct (@last_of_block i (half * 2 ^ l) (block_pos l)) as (_ & _ & EI); [apply Nat.eqb_eq; exact E'|].
        rewrite EI. assert (EP : 2 ^ l = 2 ^ j * 2 ^ (l - j)) by (rewrite <- Nat.pow_add_r; f_equal; lia).
        rewrite EP. replace ((i / (half * (2 ^ j * 2 ^ (l - j))) + 1) * (half * (2 ^ j * 2 ^ (l - j)))) with
          ((i / (half * (2 ^ j * 2 ^ (l - j))) + 1) * 2 ^ (l - j) * (half * 2 ^ j)) by ring.
        apply Nat.mod_mul. lia.
  Qed.

  (** ** The whole state *)
  Definition statistics (n : nat) (m : C * C) (v : K * K) : Prop :=
    fst m = mean_of n fst_signal /\ fst v = var_of n fst_signal /\
    (cross = true -> snd m = mean_of n snd_signal /\ snd v = var_of n snd_signal).
  Definition total (n : nat) (s : st) : Prop :=
    (0 < n -> statistics n (out_bg s) (out_var s)) /\
    sums s = (Sum (cmon K) (seq 0 n) fst_signal, if cross then Sum (cmon K) (seq 0 n) snd_signal else c0 K) /\
    sqsums s = (Sum (fmon K) (seq 0 n) fst_square, if cross then Sum (fmon K) (seq 0 n) snd_square else f0 K).
  (** the rows as they are after [i] frames *)
  Definition rows_at (i : nat) (s : st) : Prop :=
    data_fast s = row 0 (i / half) /\ slow_rows i (data_slow s) /\
    bg s = (if auto_bg then Some background else None) /\ (stats = true -> total (i / half * half) s).
  Definition waiting (i : nat) (s : st) : Prop :=
    buffers 0 s /\ raw 0 i s /\ rest s = rest (init_state V complex cross e1 e2 es1 es2 ebg evar S0 norm).
  Definition state_at (i : nat) (s : st) : Prop :=
    if (auto_bg && (i <? half))%bool then waiting i s else buffers i s /\ rows_at i s.

  Lemma holds_init (G : QGrp) (x : nat -> G) e : holds G b choice x levels chunk 0 (init_buffer e D half).
  Proof.
    assert (HV : forall j row, length row = chunk -> holds_level G b choice x chunk 0 j row).
    { intros j r0 HL. split; [exact HL|]. intros k H. pose proof (pow_pos j). nia. }
    unfold init_buffer, holds, levels. destruct (Nat.ltb_spec 0 D) as [H|H].
    - rewrite map_length, seq_length. split; [lia|]. intros j Hj. apply HV.
      rewrite nth_indep with (d' := (fun j => map (e j) (seq 0 (2 * half))) 0) by (rewrite map_length, seq_length; lia).
      rewrite (map_nth (fun j => map (e j) (seq 0 (2 * half)))), map_length, seq_length. unfold chunk.
      replace (D =? 0) with false by lia. reflexivity.
    - split; [cbn; lia|]. intros j Hj. replace j with 0 by lia. apply HV. cbn [nth]. rewrite map_length, seq_length.
      unfold chunk. replace (D =? 0) with true by lia. reflexivity.
  Qed.
  Lemma init_buffers : buffers 0 (init_state V complex cross e1 e2 es1 es2 ebg evar S0 norm).
  Proof. unfold buffers, init_state. cbn [fdata1 fdata2 sq1 sq2]. split; [|split; [|split]]; intros; apply holds_init. Qed.
  Lemma rest_rows s : rest s = rest (init_state V complex cross e1 e2 es1 es2 ebg evar S0 norm) ->
    data_fast s = row 0 0 /\ (forall i, i < half -> slow_rows i (data_slow s)) /\ bg s = None /\ total 0 s.
  Proof.
    unfold rest, init_state. cbn [data_fast data_slow bg sums sqsums out_bg out_var]. intros E.
    assert (E1 : data_fast s = row 0 0) by (rewrite Hfast0; congruence).
    assert (E2 : data_slow s = repeat (init_row K V complex cross correlate norm (s_level S0)) nlevel) by congruence.
    assert (E3 : bg s = None) by congruence.
    assert (E4 : sums s = (c0 K, c0 K)) by congruence.
    assert (E5 : sqsums s = (f0 K, f0 K)) by congruence.
    split; [exact E1|]. split; [|split; [exact E3|]].
    - intros i Hi. rewrite E2. split; [apply repeat_length|].
      assert (HR : forall p, p < nlevel -> nth p (repeat (init_row K V complex cross correlate norm (s_level S0)) nlevel) DBad = row (p + 1) 0).
      { intros p Hp. replace (p + 1) with (S p) by lia. rewrite Hslow0. rewrite nth_indep with (d' := init_row K V complex cross correlate norm (s_level S0)) by (rewrite repeat_length; lia).
        apply nth_repeat. }
      split.
      + intros l Hl. rewrite HR by lia. f_equal; [lia|]. symmetry. apply Nat.div_small. pose proof (pow_pos l). nia.
      + intros p Hp. apply HR. lia.
    - unfold total. rewrite E4, E5. split; [lia|]. split; destruct cross; reflexivity.
  Qed.
  Lemma init_ok : state_at 0 (init_state V complex cross e1 e2 es1 es2 ebg evar S0 norm).
  Proof.
    unfold state_at. destruct auto_bg eqn:EA.
    - replace (0 <? half) with true by lia. cbn [andb]. split; [apply init_buffers|]. split; [|reflexivity]. split; intros; lia.
    - cbn [andb]. split; [apply init_buffers|]. destruct (@rest_rows (init_state V complex cross e1 e2 es1 es2 ebg evar S0 norm) eq_refl) as (R1 & R2 & R3 & R4).
      unfold rows_at. rewrite EA, Nat.div_0_l by lia. split; [exact R1|]. split; [apply R2; lia|]. split; [exact R3|]. intros _. exact R4.
  Qed.

  Lemma put_holds0 (G : QGrp) (x : nat -> G) i v buf : holds G b choice x levels chunk 0 buf -> holds G b choice x levels chunk 0 (put 0 i v buf).
  Proof.
    intros [HL H]. unfold holds, put. rewrite upd_length. split; [exact HL|]. intros j Hj.
    assert (HV : forall j row, length row = chunk -> holds_level G b choice x chunk 0 j row).
    { intros j' r0 HL'. split; [exact HL'|]. intros k Hk. pose proof (pow_pos j'). nia. }
    apply HV. destruct (Nat.eq_dec j 0) as [->|N].
    - rewrite nth_upd_same by lia. rewrite upd_length. apply (H 0); lia.
    - rewrite nth_upd_other by lia. apply H; lia.
  Qed.

  Lemma calc_background_ok (f : nat -> C) (buf : list (list C)) : half <= length (nth 0 buf []) ->
    (forall m, 0 <= m < half -> nth m (nth 0 buf []) (c0 K) = f m) -> calc_background S0 buf = mean_of half f.
  Proof.
    intros HL H. unfold calc_background, mean_of.
    rewrite (@slice_nth C (c0 K) _ f 0 half) by (auto with arith; intros; apply H; lia).
    assert (E : fold_left cadd (map f (seq 0 half)) (c0 K) = Sum (cmon K) (seq 0 half) f).
    { etransitivity; [apply (@fold_left_Sum (cmon K) C (fun x => x))|]. rewrite madd_0_l, Sum_map. reflexivity. }
    rewrite E. reflexivity.
  Qed.

  (** Storing frame [i]: the rows do not change, the buffers do (or wait). *)
  Lemma store_ok i s : i < nframes -> state_at i s ->
    let s' := store_frame cross rs rs_bg S0 auto_bg i (X i) s in
    if (auto_bg && (i + 1 <? half))%bool then waiting (i + 1) s' else buffers (i + 1) s' /\ rows_at i s'.
  Proof.
    intros Hi HS. cbv zeta. unfold state_at in HS. unfold store_frame. pose proof chunk_half as HC.
    destruct auto_bg eqn:EA; cbn [andb] in HS.
    - destruct (Nat.ltb_spec i half) as [Hlt|Hge]; cbn [andb].
      + destruct HS as (B & (R1 & R2) & E).
        set (s1 := with_buffers s (put 0 i (fst (X i)) (fdata1 s)) (if cross then put 0 i (snd (X i)) (fdata2 s) else fdata2 s) (sq1 s) (sq2 s) (bg s)).
        assert (B1 : buffers 0 s1).
        { destruct B as (B1 & B2 & B3 & B4). unfold buffers, s1, with_buffers. cbn [fdata1 fdata2 sq1 sq2].
          split; [apply (@put_holds0 (cgrp K)), B1|]. split; [|split; [exact B3|exact B4]].
          intros HX. rewrite HX. apply (@put_holds0 (cgrp K)), B2, HX. }
        assert (R : raw 0 (i + 1) s1).
        { destruct B as (B1' & B2 & _). unfold raw, s1, with_buffers. cbn [fdata1 fdata2]. split.
          - intros m Hm. destruct (holds_row0 B1') as [L1 L2]. unfold put. rewrite nth_upd_same by exact L1.
            destruct (Nat.eq_dec m i) as [->|N]; [apply nth_upd_same|rewrite nth_upd_other by exact N; apply R1; lia].
            refine (eq_ind_r (fun n => i < n) _ L2). lia.
          - intros HX m Hm. rewrite HX. destruct (holds_row0 (B2 HX)) as [L1 L2]. unfold put. rewrite nth_upd_same by exact L1.
            destruct (Nat.eq_dec m i) as [->|N]; [apply nth_upd_same|rewrite nth_upd_other by exact N; apply R2; [exact HX|lia]].
            refine (eq_ind_r (fun n => i < n) _ L2). lia. }
        assert (E1 : rest s1 = rest (init_state V complex cross e1 e2 es1 es2 ebg evar S0 norm)) by (rewrite <- E; reflexivity).
        destruct (Nat.eqb_spec i (half - 1)) as [Hl|Hl].
        * replace (i + 1 <? half) with false by lia. cbn [andb].
          assert (EB : (calc_background S0 (fdata1 s1), if cross then calc_background S0 (fdata2 s1) else c0 K) = background).
          { unfold background. destruct R as (R1' & R2'). destruct B1 as (B1 & B2 & _). f_equal.
            - apply calc_background_ok; [|intros; apply R1'; lia]. destruct (holds_row0 B1) as [_ L2]. exact (eq_ind_r (fun n => half <= n) HC L2).
            - revert R2' B2. generalize (fdata2 s1). clear B R1 R2 E E1 R1' B1. clear s1. intros buf R2' B2.
              destruct cross; [|reflexivity]. apply calc_background_ok; [|intros; apply R2'; [reflexivity|lia]].
              destruct (holds_row0 (B2 eq_refl)) as [_ L2]. exact (eq_ind_r (fun n => half <= n) HC L2). }
          rewrite EB.
          set (s2 := with_buffers s1 (fdata1 s1) (fdata2 s1) (sq1 s1) (sq2 s1) (Some background)).
          destruct (@remove_ok s2 EA) as [Q1 Q2]; [exact B1|replace half with (i + 1) by lia; exact R|].
          replace (i + 1) with half by lia. split; [exact Q1|].
          destruct (rest_rows E1) as (T1 & T2 & T3 & T4).
          set (s3 := remove_background cross rs_bg S0 background s2) in *.
          assert (F : rest s3 = (data_fast s1, data_slow s1, Some background, (sums s1, sqsums s1, out_bg s1, out_var s1))) by (rewrite Q2; reflexivity).
          unfold rest in F. unfold rows_at. rewrite EA, (Nat.div_small i) by lia.
          assert (F1 : data_fast s3 = data_fast s1) by congruence.
          assert (F2 : data_slow s3 = data_slow s1) by congruence.
          assert (F3 : bg s3 = Some background) by congruence.
          assert (F4 : sums s3 = sums s1) by congruence. assert (F5 : sqsums s3 = sqsums s1) by congruence.
          rewrite F1, F2, F3. split; [exact T1|]. split; [apply T2; lia|]. split; [reflexivity|]. intros _.
          unfold total. rewrite F4, F5. split; [cbn; lia|]. apply T4.
        * replace (i + 1 <? half) with true by lia. cbn [andb]. split; [exact B1|]. split; [exact R|exact E1].
      + replace (i + 1 <? half) with false by lia. cbn [andb]. destruct HS as (B & (T1 & T2 & T3 & T4)).
        rewrite EA in T3. rewrite T3.
        assert (EC : rs i = choice i). { unfold choice. rewrite EA. replace (i <? half) with false by lia. reflexivity. }
        rewrite EC. split.
        * apply add_frame_buffers; [exact B| |]; unfold fst_signal, snd_signal, signal; rewrite EA; cbn [fst snd]; [reflexivity|].
          intros HX. rewrite HX. reflexivity.
        * unfold rows_at. rewrite EA. repeat split; try assumption; try apply T2; try apply T4; assumption.
    - rewrite andb_false_r. cbn [andb]. destruct HS as (B & (T1 & T2 & T3 & T4)). rewrite EA in T3. rewrite T3.
      assert (EC : rs i = choice i) by (unfold choice; rewrite EA; reflexivity).
      rewrite EC. split.
      + apply add_frame_buffers; [exact B| |]; unfold fst_signal, snd_signal, signal; rewrite EA; reflexivity.
      + unfold rows_at. rewrite EA. repeat split; try assumption; try apply T2; try apply T4; assumption.
  Qed.

  Lemma chunk_cases c : (c + 1) * half <= nframes -> chunk = 2 * half \/ (chunk = half /\ c = 0).
  Proof. intros H. unfold chunk. destruct (Nat.eq_dec D 0) as [E|E].
    - right. rewrite E. split; [reflexivity|]. rewrite (Hsingle E) in H. nia.
    - left. replace (D =? 0) with false by lia. reflexivity.
  Qed.

  Lemma stat_ok c s : (c + 1) * half <= nframes -> buffers ((c + 1) * half) s -> total (c * half) s ->
    let s' := stat_update cross S0 c s in
    total ((c + 1) * half) s' /\ buffers ((c + 1) * half) s' /\ data_fast s' = data_fast s /\ data_slow s' = data_slow s /\ bg s' = bg s.
  Proof.
    intros HN HB (_ & HS & HQ). cbv zeta. split; [|split; [exact HB|auto]].
    destruct HB as (B1 & B2 & _). pose proof (@chunk_cases c HN) as HC. pose proof levels_pos as HL.
    assert (EN : seq 0 ((c + 1) * half) = seq 0 (c * half) ++ seq (c * half) half).
    { replace ((c + 1) * half) with (c * half + half) by ring. rewrite seq_app. reflexivity. }
    assert (EC : forall x buf, holds (cgrp K) b choice x levels chunk ((c + 1) * half) buf -> @level_chunk S0 C buf 0 c = map x (seq (c * half) half)).
    { intros x buf H. unfold level_chunk.
      destruct (@holds_chunk (cgrp K) b choice x levels chunk half 0 c buf Hhalf HL HC) as [E _]; [|exact E].
      cbn [Nat.pow]. rewrite Nat.mul_1_r. exact H. }
    assert (ES : forall x (l : list C), l = map x (seq (c * half) half) -> fold_left cadd l (Sum (cmon K) (seq 0 (c * half)) x) = Sum (cmon K) (seq 0 ((c + 1) * half)) x).
    { intros x l ->. rewrite EN, Sum_app. etransitivity; [apply (@fold_left_Sum (cmon K) C (fun x => x))|]. rewrite Sum_map. reflexivity. }
    assert (EQ : forall x (l : list C), l = map x (seq (c * half) half) ->
      fold_left (fun a y => fadd K a (cnorm2 y)) l (Sum (fmon K) (seq 0 (c * half)) (fun k => cnorm2 (x k))) = Sum (fmon K) (seq 0 ((c + 1) * half)) (fun k => cnorm2 (x k))).
    { intros x l ->. rewrite EN, Sum_app. etransitivity; [apply (@fold_left_Sum (fmon K) C (fun y => cnorm2 y))|]. rewrite Sum_map. reflexivity. }
    unfold total, stat_update. cbn [sums sqsums out_bg out_var]. rewrite HS, HQ. cbn [fst snd].
    rewrite (ES fst_signal) by (apply EC, B1).
    assert (EQ1 := EQ fst_signal _ (EC _ _ B1)). fold fst_square in EQ1. rewrite EQ1.
    split; [|split].
    - intros _. unfold statistics. cbn [fst snd]. split; [reflexivity|]. split; [reflexivity|]. intros HX. rewrite HX.
      rewrite (ES snd_signal) by (apply EC, B2, HX).
      assert (EQ2 := EQ snd_signal _ (EC _ _ (B2 HX))). fold snd_square in EQ2. rewrite EQ2. split; reflexivity.
    - f_equal. destruct cross; [|reflexivity]. apply ES, EC, B2. reflexivity.
    - f_equal. destruct cross; [|reflexivity]. exact (EQ snd_signal _ (EC _ _ (B2 eq_refl))).
  Qed.

  (** What is yielded when chunk [c] is complete *)
  Definition yield_at (c : nat) (y : yielded K V) : Prop :=
    fst (fst (fst y)) = row 0 (c + 1) /\ slow_rows ((c + 1) * half) (snd (fst (fst y))) /\
    (stats = true -> statistics ((c + 1) * half) (snd (fst y)) (snd y)).

  Lemma frame_step_ok i s : i < nframes -> state_at i s ->
    exists s' ys, frame_step cross cc ac aligned rs rs_bg S0 norm full auto_bg stats i (X i) s = Ok (s', ys) /\ state_at (i + 1) s' /\
      if i mod half =? half - 1 then exists y, ys = [y] /\ yield_at (i / half) y else ys = [].
  Proof.
    intros Hi HS. pose proof (@store_ok i s Hi HS) as HT. cbv zeta in HT. unfold frame_step.
    set (s1 := store_frame cross rs rs_bg S0 auto_bg i (X i) s) in *. clearbody s1.
    destruct (i mod half =? half - 1) eqn:E.
    - destruct (@last_of_block _ _ Hhalf E) as (EM & ED & EI). set (c := i / half) in *.
      assert (HW : (auto_bg && (i + 1 <? half))%bool = false).
      { destruct auto_bg; [|reflexivity]. cbn [andb]. apply Nat.ltb_ge. rewrite EI. nia. }
      rewrite HW in HT. destruct HT as (B & (T1 & T2 & T3 & T4)). fold c in T1, T4.
      assert (HN : (c + 1) * half <= nframes) by (rewrite <- EI; lia).
      rewrite EI in B.
      set (s2 := if stats then stat_update cross S0 c s1 else s1).
      assert (P : buffers ((c + 1) * half) s2 /\ data_fast s2 = data_fast s1 /\ data_slow s2 = data_slow s1 /\ bg s2 = bg s1 /\
        (stats = true -> total ((c + 1) * half) s2)).
      { unfold s2. destruct stats.
        - destruct (@stat_ok c s1 HN B (T4 eq_refl)) as (Q1 & Q2 & Q3 & Q4 & Q5). auto.
        - split; [exact B|]. do 3 (split; [reflexivity|]). intros Hf. discriminate Hf. }
      clearbody s2. destruct P as (B2 & P1 & P2 & P3 & P4).
      rewrite Hfast with (c := c); [|exact HN|exact B2|rewrite P1; exact T1]. cbn [bind].
      destruct T2 as (L1 & L2 & L3).
      destruct (@slow_update_ok i s2 Hi) with (todo := D - 1) (j := 1) (rows := data_slow s2) as (rows' & R1 & R2).
      + rewrite EI. exact B2.
      + lia.
      + lia.
      + rewrite P2. exact L1.
      + intros l Hl. lia.
      + rewrite P2. intros l Hl. apply L2. lia.
      + rewrite P2. exact L3.
      + rewrite R1. cbn [bind].
        eexists _, _. split; [reflexivity|]. split.
        * unfold state_at. rewrite HW. split; [rewrite EI; exact B2|]. unfold rows_at. rewrite ED. cbn [data_fast data_slow bg with_data].
          split; [reflexivity|]. split; [exact R2|]. split; [rewrite P3; exact T3|exact P4].
        * eexists. split; [reflexivity|]. unfold yield_at, yield_of. cbn [fst snd data_fast data_slow out_bg out_var with_data].
          split; [reflexivity|]. split; [rewrite <- EI; exact R2|]. intros Hs. destruct (P4 Hs) as [Q _]. apply Q. nia.
    - destruct (@inside_block _ _ Hhalf E) as (EM & ED). eexists _, _. split; [reflexivity|]. split; [|reflexivity].
      unfold state_at. destruct (auto_bg && (i + 1 <? half))%bool eqn:HW; [exact HT|].
      destruct HT as (B & (T1 & T2 & T3 & T4)). split; [exact B|]. unfold rows_at. rewrite ED. split; [exact T1|]. split; [|split; [exact T3|exact T4]].
      destruct T2 as (L1 & L2 & L3). split; [exact L1|]. split; [|exact L3]. intros l Hl. rewrite (L2 l Hl). f_equal. symmetry.
      apply inside_block; [apply block_pos|]. apply Nat.eqb_neq. intros E'. apply EM.
      destruct (@last_of_block i (half * 2 ^ l) (block_pos l)) as (_ & _ & EI); [apply Nat.eqb_eq; exact E'|].
      rewrite EI. replace ((i / (half * 2 ^ l) + 1) * (half * 2 ^ l)) with ((i / (half * 2 ^ l) + 1) * 2 ^ l * half) by ring. apply Nat.mod_mul. lia.
  Qed.

  (** The whole loop *)
  Notation loop := (stream_loop cross cc ac aligned rs rs_bg S0 norm full auto_bg stats).
  Lemma loop_ok frames : forall i s, (forall k, k < length frames -> nth k frames (X 0) = X (i + k)) -> i <= nframes -> nframes <= i + length frames ->
    state_at i s ->
    exists s' ys, loop frames i s = Ok (s', ys) /\ state_at nframes s' /\ length ys = nframes / half - i / half /\
      forall c, c < length ys -> yield_at (i / half + c) (nth c ys ((DBad, []), ebg, evar)).
  Proof.
    induction frames as [|x frames IH]; intros i s HX Hi HL HS; cbn [stream_loop].
    - cbn [length] in HL. assert (i = nframes) by lia. subst i. rewrite Nat.ltb_irrefl.
      exists s, []. split; [reflexivity|]. split; [exact HS|]. split; [cbn; lia|]. cbn. lia.
    - destruct (Nat.eqb_spec i nframes) as [->|N].
      + exists s, []. split; [reflexivity|]. split; [exact HS|]. split; [cbn; lia|]. cbn. lia.
      + assert (E0 : x = X i) by (specialize (HX 0 ltac:(cbn; lia)); cbn [nth] in HX; rewrite HX; f_equal; lia). rewrite E0.
        destruct (@frame_step_ok i s ltac:(lia) HS) as (s1 & ys1 & E1 & S1 & Y1). rewrite E1. cbn [bind].
        destruct (IH (S i) s1) as (s2 & ys2 & E2 & S2 & L2 & Y2); [|lia|cbn [length] in HL; lia|replace (S i) with (i + 1) by lia; exact S1|].
        { intros k Hk. specialize (HX (S k) ltac:(cbn [length]; lia)). cbn [nth] in HX. rewrite HX. f_equal. lia. }
        rewrite E2. cbn [bind]. eexists _, _. split; [reflexivity|]. split; [exact S2|].
        replace (S i) with (i + 1) in L2, Y2 by lia.
        destruct (i mod half =? half - 1) eqn:E.
        * destruct (@last_of_block _ _ Hhalf E) as (_ & ED & EI). destruct Y1 as (y & -> & Y1). rewrite ED in L2, Y2. cbn [app length].
          assert (i / half + 1 <= nframes / half). { rewrite <- ED. apply Nat.div_le_mono; lia. }
          split; [lia|]. intros [|c] Hc; cbn [nth]; [rewrite Nat.add_0_r; exact Y1|].
          replace (i / half + S c) with (i / half + 1 + c) by lia. apply Y2. lia.
        * destruct (@inside_block _ _ Hhalf E) as (_ & ED). rewrite Y1. cbn [app]. rewrite ED in L2, Y2. split; [exact L2|exact Y2].
  Qed.

  (** An iterator that ends too early *)
  Lemma loop_short frames : forall i s, (forall k, k < length frames -> nth k frames (X 0) = X (i + k)) -> i + length frames < nframes ->
    1 < nframes -> state_at i s -> loop frames i s = Raise ValueError.
  Proof.
    induction frames as [|x frames IH]; intros i s HX HL H1 HS; cbn [stream_loop].
    - cbn [length] in HL. replace (i - 1 <? nframes - 1) with true by lia. reflexivity.
    - cbn [length] in HL. replace (i =? nframes) with false by lia.
      assert (E0 : x = X i) by (specialize (HX 0 ltac:(cbn; lia)); cbn [nth] in HX; rewrite HX; f_equal; lia). rewrite E0.
      destruct (@frame_step_ok i s ltac:(lia) HS) as (s1 & ys1 & E1 & S1 & Y1). rewrite E1. cbn [bind].
      rewrite (IH (S i) s1); [reflexivity| |lia|exact H1|replace (S i) with (i + 1) by lia; exact S1].
      intros k Hk. specialize (HX (S k) ltac:(cbn [length]; lia)). cbn [nth] in HX. rewrite HX. f_equal. lia.
  Qed.

  (** ** The rest of the data *)
  Lemma state_end s : state_at nframes s -> 0 < nframes -> buffers nframes s /\ rows_at nframes s.
  Proof.
    unfold state_at. destruct Hframes as [n En]. intros H HP. assert (H1 : (auto_bg && (nframes <? half))%bool = false).
    { destruct auto_bg; [|reflexivity]. cbn [andb]. apply Nat.ltb_ge. rewrite En. destruct n; [lia|nia]. }
    rewrite H1 in H. exact H.
  Qed.
  (** With an explicit number of levels nothing is left to do *)
  Lemma finish_none s : nlevel + 1 = Nat.max D 1 -> finish cross cc ac aligned rs_tail S0 norm s = Ok s.
  Proof.
    intros E. unfold finish. rewrite E, Nat.sub_diag. cbn [tail_update bind]. destruct s; reflexivity.
  Qed.

  Section Tail.
    Hypothesis Hmean : b = BINNING_MEAN.
    Hypothesis Hlast : nframes = chunk * 2 ^ (levels - 1).
    (** the rows that are computed at the end *)
    Variable trow : nat -> cdata K V.
    Notation blocks f j := (block_means (cgrp K) j (map f (seq 0 nframes))).
    Notation squares f j := (block_means (fgrp K) j (map f (seq 0 nframes))).
    Notation sq_arg q := (if (has_flag norm NORM_STRUCTURED && correlate)%bool then Some q else None).
    Hypothesis Htail : forall j f2 q2, levels <= j <= nlevel -> (cross = true -> f2 = blocks snd_signal j /\ q2 = squares snd_square j) ->
      (if cross
       then cc (aligned j) (blocks fst_signal j) f2 None None (Some (s_level S0)) (Some norm) (Some (s_method S0))
              (sq_arg (squares fst_square j)) (sq_arg q2) (Some (row j 0))
       else ac (aligned j) (blocks fst_signal j) None (sq_arg (squares fst_square j)) (Some (s_level S0)) (Some norm) (Some (s_method S0)) (Some (row j 0)))
      = Ok (trow j).

    Lemma tail_ok todo : forall j f2 q2 rows, j + todo = Nat.max (nlevel + 1) j -> levels <= j -> length rows = nlevel ->
      (cross = true -> f2 = blocks snd_signal (j - 1) /\ q2 = squares snd_square (j - 1)) ->
      (forall p, j - 1 <= p < nlevel -> nth p rows DBad = row (p + 1) 0) ->
      exists rows', tail_update V cross cc ac aligned rs_tail S0 norm todo j (blocks fst_signal (j - 1)) f2 (squares fst_square (j - 1)) q2 rows = Ok rows' /\
        length rows' = nlevel /\ (forall p, p < j - 1 -> nth p rows' DBad = nth p rows DBad) /\
        (forall p, j - 1 <= p < nlevel -> nth p rows' DBad = trow (p + 1)).
    Proof.
      pose proof levels_pos as HLP.
      induction todo as [|todo IH]; intros j f2 q2 rows HJ Hj HL H2 HR; cbn [tail_update].
      - exists rows. split; [reflexivity|]. split; [exact HL|]. split; [reflexivity|]. intros p Hp. lia.
      - rewrite nth_error_nth' with (d := DBad) by lia. rewrite HR by lia. replace (j - 1 + 1) with j by lia.
        rewrite Hmean.
        assert (E1 : forall r, bin_data (cgrp K) BINNING_MEAN r (blocks fst_signal (j - 1)) = blocks fst_signal j).
        { intros r. replace j with (S (j - 1)) at 2 by lia. apply mean_data_blocks. }
        assert (E3 : forall r, bin_data (fgrp K) BINNING_MEAN r (squares fst_square (j - 1)) = squares fst_square j).
        { intros r. replace j with (S (j - 1)) at 2 by lia. apply mean_data_blocks. }
        assert (E2 : cross = true -> forall r, bin_data (cgrp K) BINNING_MEAN r f2 = blocks snd_signal j /\ bin_data (fgrp K) BINNING_MEAN r q2 = squares snd_square j).
        { intros HX r. destruct (H2 HX) as [-> ->]. replace j with (S (j - 1)) at 2 4 by lia. split; apply mean_data_blocks. }
        rewrite E1, E3.
        pose proof (@Htail j (bin_data (cgrp K) BINNING_MEAN (rs_tail j) f2) (bin_data (fgrp K) BINNING_MEAN (rs_tail j) q2) ltac:(lia) (fun HX => E2 HX (rs_tail j))) as HT.
        match goal with |- exists _, bind ?x ?f = _ /\ _ => replace x with (Ok (trow j)) by (symmetry; exact HT) end. cbn [bind].
        destruct (IH (S j) (bin_data (cgrp K) BINNING_MEAN (rs_tail j) f2) (bin_data (fgrp K) BINNING_MEAN (rs_tail j) q2) (upd rows (j - 1) (trow j)))
          as (rows' & R1 & R2 & R3 & R4).
        + lia.
        + lia.
        + rewrite upd_length. exact HL.
        + replace (S j - 1) with j by lia. intros HX. apply E2, HX.
        + intros p Hp. rewrite nth_upd_other by lia. apply HR. lia.
        + replace (S j - 1) with j in R1, R3, R4 by lia. exists rows'. split; [exact R1|]. split; [exact R2|]. split.
          * intros p Hp. rewrite R3 by lia. apply nth_upd_other. lia.
          * intros p Hp. destruct (Nat.eq_dec p (j - 1)) as [->|N]; [|apply R4; lia].
            rewrite R3 by lia. rewrite nth_upd_same by lia. f_equal. lia.
    Qed.

    Lemma last_nth A (l : list (list A)) n : length l = S n -> last l [] = nth n l [].
    Proof. revert n. induction l as [|a l IH]; intros n H; [discriminate|]. cbn [length] in H. destruct l as [|a' l]; [cbn in H; replace n with 0 by lia; reflexivity|].
      destruct n as [|n]; [discriminate|]. change (last (a :: a' :: l) []) with (last (a' :: l) []). rewrite (IH n) by lia. reflexivity. Qed.

    Lemma last_row (G : QGrp) (x : nat -> G) buf : holds G b choice x levels chunk nframes buf ->
      last buf [] = block_means G (levels - 1) (map x (seq 0 nframes)).
    Proof.
      intros H. pose proof levels_pos as HLP. assert (HL := proj1 H). rewrite (@last_nth G buf (levels - 1)) by lia.
      rewrite Hlast in H. rewrite (@holds_full G b choice x levels chunk (levels - 1) buf) by (auto; lia).
      rewrite Hmean, <- (@binned_means G choice). rewrite Hlast, Nat.div_mul by (pose proof (pow_pos (levels - 1)); lia). reflexivity.
    Qed.

    Lemma finish_ok s : state_at nframes s -> 0 < nframes ->
      exists rows, finish cross cc ac aligned rs_tail S0 norm s = Ok (with_data s (data_fast s) rows) /\
        data_fast s = row 0 (nframes / half) /\ length rows = nlevel /\
        (forall l, 0 < l < D -> nth (l - 1) rows DBad = row l (nframes / (half * 2 ^ l))) /\
        (forall l, levels <= l <= nlevel -> nth (l - 1) rows DBad = trow l) /\
        (stats = true -> total nframes s).
    Proof.
      intros HS HP. pose proof levels_pos as HLP. destruct (@state_end s HS HP) as [(B1 & B2 & B3 & B4) (T1 & (L1 & L2 & L3) & T3 & T4)].
      unfold finish. fold levels.
      replace (last (fdata1 s) []) with (blocks fst_signal (levels - 1)) by (symmetry; exact (last_row B1)).
      replace (last (sq1 s) []) with (squares fst_square (levels - 1)) by (symmetry; exact (@last_row (fgrp K) fst_square _ B3)).
      destruct (@tail_ok (nlevel + 1 - levels) levels (last (fdata2 s) []) (last (sq2 s) []) (data_slow s)) as (rows & R1 & R2 & R3 & R4).
      - lia.
      - lia.
      - exact L1.
      - intros HX. split; [apply (last_row (B2 HX))|apply (@last_row (fgrp K) snd_square _ (B4 HX))].
      - intros p Hp. apply L3. unfold levels in Hp. lia.
      - match goal with |- exists _, bind ?x ?f = _ /\ _ => replace x with (Ok rows) by (symmetry; exact R1) end. cbn [bind].
        exists rows. split; [reflexivity|]. split; [exact T1|]. split; [exact R2|]. split; [|split].
        + intros l Hl. rewrite R3 by (unfold levels; lia). apply L2, Hl.
        + intros l Hl. rewrite R4 by lia. f_equal. lia.
        + intros Hs. specialize (T4 Hs). destruct Hframes as [n En].
          rewrite En, Nat.div_mul in T4 by lia. rewrite En. exact T4.
    Qed.
  End Tail.
End Loop.
