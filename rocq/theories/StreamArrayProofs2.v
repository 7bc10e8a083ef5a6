(** The streaming functions on frames with any number of axes: the loop over the frames, pixel by pixel. *)
From Coq Require Import String ZifyBool ZifyNat.
From Verif Require Import Base Kernels KernelProofs CoreModel CoreProofs CoreApi VecModel VecProofs FftModel NormModel CorrModel NormArrayModel NormArrayProofs AxisModel AxisProofs AxisProofs2 AxisProofs3
  MultiModel LevelArrayModel LevelArrayProofs MultiArrayModel MultiArrayProofs MultiArrayProofs2 StreamModel StreamArrayModel StreamArrayProofs.
Open Scope string_scope.
Open Scope nat_scope.
Local Notation length := List.length.
Set Implicit Arguments.

Lemma fold_commute A S T (P : S -> T) (f : S -> A -> S) (g : T -> A -> T) l : (forall a s, P (f s a) = g (P s) a) -> forall s, P (fold_left f l s) = fold_left g l (P s).
Proof. intros H. induction l as [|x l IH]; intros s; cbn [fold_left]; [reflexivity|]. rewrite IH, H. reflexivity. Qed.
Lemma levels_length K V (d : ndata K V) p : length (levels_at d p) = hd 0 (first_shape d).
Proof. unfold levels_at. rewrite map_length, seq_length. reflexivity. Qed.
Lemma levels_nth K V (d : ndata K V) p i : nth_error (levels_at d p) i = if hd 0 (first_shape d) <=? i then None else Some (pix (level_data d i) p).
Proof.
  destruct (Nat.leb_spec (hd 0 (first_shape d)) i) as [H|H]; [apply nth_error_None; rewrite levels_length; exact H|]. unfold levels_at. apply (map_nth_error (fun l => pix (level_data d l) p)).
  rewrite (nth_error_nth' _ 0) by (rewrite seq_length; exact H). rewrite seq_nth by exact H. reflexivity.
Qed.
Lemma form_levels K V cross cor nm L s cs (d : ndata K V) : tuple_form cross cor nm (L :: s) cs d -> hd 0 (first_shape d) = L.
Proof. destruct d; cbn [tuple_form first_shape]; [intros (_ & -> & _)|intros (_ & -> & _)|contradiction]; reflexivity. Qed.
Arguments form_levels {K V cross cor nm L s cs d} _.
Lemma map_seq_upd A (f g : nat -> A) i : forall n a, (forall l, l <> i -> g l = f l) -> map g (seq a n) = if a <=? i then upd (map f (seq a n)) (i - a) (g i) else map f (seq a n).
Proof.
  induction n as [|n IH]; intros a H; [destruct (a <=? i); [destruct (i - a)|]; reflexivity|]. cbn [seq map]. rewrite (IH (S a) H). destruct (Nat.leb_spec a i) as [L|L].
  - destruct (Nat.eq_dec a i) as [->|N].
    + rewrite Nat.sub_diag. cbn [upd]. destruct (Nat.leb_spec (S i) i); [lia|]. reflexivity.
    + replace (i - a) with (S (i - S a)) by lia. cbn [upd]. destruct (Nat.leb_spec (S a) i); [|lia]. rewrite (H a N). reflexivity.
  - destruct (Nat.leb_spec (S a) i); [lia|]. rewrite H by lia. reflexivity.
Qed.
Lemma set_level_at K V cross cor nm L s m n (slow row : ndata K V) i p : tuple_form cross cor nm (L :: s ++ [m]) [L; n] slow -> tuple_form cross cor nm (s ++ [m]) [n] row ->
  levels_at (set_level slow i row) p = upd (levels_at slow p) i (pix row p).
Proof.
  intros HF HR. destruct (@set_level_pixels K V cross cor nm L s m n slow row i HF HR) as (HF' & PI & PO). unfold levels_at. rewrite (form_levels HF), (form_levels HF').
  rewrite (@map_seq_upd _ (fun l => pix (level_data slow l) p) (fun l => pix (level_data (set_level slow i row) l) p) i L 0) by (intros l Hl; apply PO; exact Hl). rewrite PI, Nat.sub_0_r. reflexivity.
Qed.

Definition pair_at (A : Type) (x : frame A * frame A) (p : list nat) : A * A := (fst x p, snd x p).
Definition st_at (K : Fld) (V : CMon) (st : nstate K V) (p : list nat) : sstate K V :=
  Build_sstate V (buf_at (n_fdata1 st) p) (buf_at (n_fdata2 st) p) (buf_at (n_sq1 st) p) (buf_at (n_sq2 st) p) (pix (n_fast st) p) (levels_at (n_slow st) p)
    (option_map (fun b => pair_at b p) (n_bg st)) (pair_at (n_sums st) p) (pair_at (n_sqsums st) p) (pair_at (n_outbg st) p) (pair_at (n_outvar st) p).
Definition yield_at (K : Fld) (V : CMon) (y : nyielded K V) (p : list nat) : yielded K V :=
  let '((fast, slow), b, v) := y in ((pix fast p, levels_at slow p), pair_at b p, pair_at v p).

Section Frames.
  Variable K : Fld.
  Notation C := (Cx K).
  Variable V : CMon.
  Variable cross : bool.
  Variable S0 : setup.
  Variables rs rs_bg : nat -> bool.
  Lemma add_frame_at r i x (st : nstate K V) p : st_at (add_frame_nd cross S0 r i x st) p = add_frame cross S0 r i (pair_at x p) (st_at st p).
  Proof.
    unfold add_frame_nd, add_frame, with_buffers_nd, with_buffers, st_at. cbn [n_fdata1 n_fdata2 n_sq1 n_sq2 n_fast n_slow n_bg n_sums n_sqsums n_outbg n_outvar fdata1 fdata2 sq1 sq2 data_fast data_slow bg sums sqsums out_bg out_var pair_at fst snd].
    rewrite (@add_data_at (cgrp K)), (@add_data_at (fgrp K)). destruct cross; [rewrite (@add_data_at (cgrp K)), (@add_data_at (fgrp K))|]; reflexivity.
  Qed.
  Lemma background_at b p : calc_background_nd S0 b p = calc_background (K := K) S0 (buf_at b p).
  Proof. unfold calc_background_nd, calc_background, buf_at. rewrite nth_map_nil, slice_map. reflexivity. Qed.
  Lemma remove_at b (st : nstate K V) p : st_at (remove_background_nd cross rs_bg S0 b st) p = remove_background cross rs_bg S0 (pair_at b p) (st_at st p).
  Proof.
    unfold remove_background_nd, remove_background, for_range. apply (fold_commute (fun st => st_at st p)). intros i st'. rewrite add_frame_at. f_equal. unfold pair_at. cbn [fst snd st_at fdata1 fdata2]. unfold buf_at. rewrite !nth_map_nil.
    assert (E : forall l, nth i (map (fun x : frame C => x p) l) (c0 K) = nth i l (fun _ => c0 K) p) by (intros l; exact (map_nth (fun x : frame C => x p) l (fun _ => c0 K) i)). rewrite !E. reflexivity.
  Qed.
  Lemma store_at auto_background i x (st : nstate K V) p : st_at (store_frame_nd cross rs rs_bg S0 auto_background i x st) p = store_frame cross rs rs_bg S0 auto_background i (pair_at x p) (st_at st p).
  Proof.
    unfold store_frame_nd, store_frame. destruct (_ && auto_background)%bool.
    - set (st1 := with_buffers_nd st _ _ _ _ _). set (st2 := with_buffers (st_at st p) _ _ _ _ _).
      assert (E : st_at st1 p = st2). { unfold st1, st2, with_buffers_nd, with_buffers, st_at. cbn [n_fdata1 n_fdata2 n_sq1 n_sq2 n_fast n_slow n_bg n_sums n_sqsums n_outbg n_outvar fdata1 fdata2 sq1 sq2 data_fast data_slow bg sums sqsums out_bg out_var pair_at fst snd]. rewrite put_at. destruct cross; [rewrite put_at|]; reflexivity. }
      destruct (i =? s_half S0 - 1); [|exact E]. rewrite remove_at. rewrite <- E. f_equal; [unfold pair_at; cbn [fst snd]; rewrite background_at; destruct cross; [rewrite background_at|]; reflexivity|].
      unfold with_buffers_nd at 1, with_buffers. unfold st_at at 1. cbn [n_fdata1 n_fdata2 n_sq1 n_sq2 n_fast n_slow n_bg n_sums n_sqsums n_outbg n_outvar option_map]. unfold pair_at at 1. cbn [fst snd]. rewrite background_at. destruct cross; [rewrite background_at|]; reflexivity.
    - rewrite add_frame_at. f_equal. unfold st_at. cbn [bg]. destruct (n_bg st) as [b|]; [|reflexivity]. cbn [option_map]. unfold pair_at. cbn [fst snd]. destruct cross; reflexivity.
  Qed.
  Lemma stat_at_nd ic (st : nstate K V) p : st_at (stat_update_nd cross S0 ic st) p = stat_update cross S0 ic (st_at st p).
  Proof.
    unfold stat_update_nd, stat_update, st_at. cbn [n_fdata1 n_fdata2 n_sq1 n_sq2 n_fast n_slow n_bg n_sums n_sqsums n_outbg n_outvar fdata1 fdata2 sq1 sq2 data_fast data_slow bg sums sqsums out_bg out_var].
    rewrite !chunk_at. unfold pair_at. cbn [fst snd]. destruct cross; reflexivity.
  Qed.

  (** What the steps keep *)
  Definition same_widths (st st' : nstate K V) : Prop := widths (n_fdata1 st') = widths (n_fdata1 st) /\ widths (n_fdata2 st') = widths (n_fdata2 st) /\ widths (n_sq1 st') = widths (n_sq1 st) /\ widths (n_sq2 st') = widths (n_sq2 st) /\
    n_fast st' = n_fast st /\ n_slow st' = n_slow st.
  Lemma same_trans a b c : same_widths a b -> same_widths b c -> same_widths a c.
  Proof. unfold same_widths. intuition congruence. Qed.
  Lemma add_frame_same r i x st : same_widths st (add_frame_nd cross S0 r i x st).
  Proof.
    unfold same_widths, add_frame_nd, with_buffers_nd. cbn [n_fdata1 n_fdata2 n_sq1 n_sq2 n_fast n_slow]. rewrite (@add_data_widths (cgrp K)), (@add_data_widths (fgrp K)).
    destruct cross; [rewrite (@add_data_widths (cgrp K)), (@add_data_widths (fgrp K))|]; repeat split; reflexivity.
  Qed.
  Lemma remove_same b st : same_widths st (remove_background_nd cross rs_bg S0 b st).
  Proof.
    unfold remove_background_nd, for_range. generalize (seq 0 (s_half S0 - 0)). intros l. revert st. induction l as [|i l IH]; intros st; cbn [fold_left]; [repeat split; reflexivity|]. eapply same_trans; [|apply IH]. apply add_frame_same.
  Qed.
  Lemma store_same auto_background i x st : same_widths st (store_frame_nd cross rs rs_bg S0 auto_background i x st).
  Proof.
    unfold store_frame_nd. destruct (_ && auto_background)%bool; [|apply add_frame_same]. set (st1 := with_buffers_nd st _ _ _ _ _).
    assert (E : same_widths st st1). { unfold same_widths, st1, with_buffers_nd. cbn [n_fdata1 n_fdata2 n_sq1 n_sq2 n_fast n_slow]. rewrite put_widths. destruct cross; [rewrite put_widths|]; repeat split; reflexivity. }
    destruct (i =? s_half S0 - 1); [|exact E]. eapply same_trans; [exact E|]. eapply same_trans; [|apply remove_same]. repeat split; reflexivity.
  Qed.
  Lemma stat_same ic st : same_widths st (stat_update_nd cross S0 ic st).
  Proof. repeat split; reflexivity. Qed.
End Frames.
