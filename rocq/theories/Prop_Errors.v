(** Refused arguments, open slices, defaults: cases that the theorems of the other files leave out. *)
From Coq Require Import List Arith ZArith Bool Lia String Ascii.
From Coq Require Import ZifyBool ZifyNat.
From Verif Require Import Base NormModel CorrModel MultiModel StreamModel VideoModel MapModel Ordered SectorModel ConfModel RegularProofs SectorProofs SectorProofs2 SectorProofs3 ReshapeModel.
Import ListNotations.
Open Scope string_scope.
Open Scope nat_scope.
Open Scope list_scope.
Local Notation length := List.length.

(* ------------------------------------------------------------------ *)
(** * Names of modes: which characters are dropped at the ends *)
Theorem C26_spaces (c : ascii) : is_space c = true <-> In (nat_of_ascii c) [9; 10; 11; 12; 13; 28; 29; 30; 31; 32].
Proof.
  unfold is_space. generalize (nat_of_ascii c). intros n. cbn [In]. split.
  - intros H. apply orb_prop in H as [H|H]; [apply orb_prop in H as [H|H]|].
    + apply Nat.eqb_eq in H. lia.
    + apply andb_prop in H as [H1 H2]. apply Nat.leb_le in H1. apply Nat.leb_le in H2. lia.
    + apply andb_prop in H as [H1 H2]. apply Nat.leb_le in H1. apply Nat.leb_le in H2. lia.
  - intros H. destruct (Nat.eqb_spec n 32); [reflexivity|]. destruct (Nat.leb_spec 9 n), (Nat.leb_spec n 13), (Nat.leb_spec 28 n), (Nat.leb_spec n 31); cbn; try reflexivity; exfalso; lia.
Qed.
Print Assumptions C26_spaces.

(* ------------------------------------------------------------------ *)
(** * Method and binning of the multiple-tau functions *)
(** The methods are corr (the default), fft and diff; the mean is the default binning of the correlation, the first value that
    of the difference, for which the mean is refused. *)
Theorem C29_arguments (method : option string) (binning : option Z) m b :
  m = (match method with None => "corr" | Some m => m end) ->
  b = (match binning with Some b => b | None => if String.eqb m "diff" then 0%Z else 1%Z end) ->
  ((m = "corr" \/ m = "fft") /\ (b = 0 \/ b = 1 \/ b = 2)%Z \/ m = "diff" /\ (b = 0 \/ b = 2)%Z -> _default_method_and_binning method binning = Ok (m, b)) /\
  (~ ((m = "corr" \/ m = "fft") /\ (b = 0 \/ b = 1 \/ b = 2)%Z \/ m = "diff" /\ (b = 0 \/ b = 2)%Z) -> _default_method_and_binning method binning = Raise ValueError).
Proof.
  intros Em Eb. unfold _default_method_and_binning. rewrite <- Em. clear Em method.
  destruct (String.eqb_spec m "corr") as [->|N1]; [|destruct (String.eqb_spec m "fft") as [->|N2]; [|destruct (String.eqb_spec m "diff") as [->|N3]]]; cbn [orb bind String.eqb] in *.
  - assert (E : (match binning with None => BINNING_MEAN | Some b => b end) = b) by (rewrite Eb; destruct binning; reflexivity). rewrite E. cbn. clear.
    unfold BINNING_MEAN, BINNING_FIRST, BINNING_CHOOSE. split; intros H.
    + destruct H as [[_ [->|[->| ->]]]|[H _]]; [reflexivity..|discriminate H].
    + destruct (Z.eqb_spec b 1), (Z.eqb_spec b 0), (Z.eqb_spec b 2); cbn; try reflexivity; exfalso; apply H; left; auto.
  - assert (E : (match binning with None => BINNING_MEAN | Some b => b end) = b) by (rewrite Eb; destruct binning; reflexivity). rewrite E. cbn. clear.
    unfold BINNING_MEAN, BINNING_FIRST, BINNING_CHOOSE. split; intros H.
    + destruct H as [[_ [->|[->| ->]]]|[H _]]; [reflexivity..|discriminate H].
    + destruct (Z.eqb_spec b 1), (Z.eqb_spec b 0), (Z.eqb_spec b 2); cbn; try reflexivity; exfalso; apply H; left; auto.
  - assert (E : (match binning with None => BINNING_FIRST | Some b => b end) = b) by (rewrite Eb; destruct binning; reflexivity). rewrite E. cbn. clear.
    unfold BINNING_MEAN, BINNING_FIRST, BINNING_CHOOSE. split; intros H.
    + destruct H as [[[H|H] _]|[_ [->| ->]]]; [discriminate H..|reflexivity|reflexivity].
    + destruct (Z.eqb_spec b 0), (Z.eqb_spec b 2); cbn; try reflexivity; exfalso; apply H; right; auto.
  - split; intros H; [|reflexivity]. exfalso. destruct H as [[[H|H] _]|[H _]]; auto.
Qed.
Print Assumptions C29_arguments.
Example C29_arguments_example :
  _default_method_and_binning None None = Ok ("corr", 1%Z) /\ _default_method_and_binning (Some "diff") None = Ok ("diff", 0%Z) /\
  _default_method_and_binning (Some "fft") (Some 2%Z) = Ok ("fft", 2%Z) /\ _default_method_and_binning (Some "diff") (Some 1%Z) = Raise ValueError /\
  _default_method_and_binning (Some "corr") (Some 3%Z) = Raise ValueError /\ _default_method_and_binning (Some "") None = Raise ValueError.
Proof. repeat split. Qed.

(* ------------------------------------------------------------------ *)
(** * One time sequence without the other *)
Theorem C36_one_time (K : Fld) W w frames (t : list Z) level_size norm method count len period binning nlevel chunk_size auto_background mode stats :
  (forall t1 t2, (t1 = Some t /\ t2 = None) \/ (t1 = None /\ t2 = Some t) ->
    @iccorr_multi K W w frames t1 t2 level_size norm method count len period binning nlevel chunk_size auto_background mode stats = Raise ValueError /\
    @iccorr_multi_complex K W w frames t1 t2 level_size norm method count len period binning nlevel chunk_size auto_background mode stats = Raise ValueError /\
    @iccorr K W w frames t1 t2 level_size norm method count len chunk_size auto_background mode stats = Raise ValueError /\
    @iccorr_complex K W w frames t1 t2 level_size norm method count len chunk_size auto_background mode stats = Raise ValueError).
Proof. intros t1 t2 [[-> ->]|[-> ->]]; repeat split. Qed.
Print Assumptions C36_one_time.

(* ------------------------------------------------------------------ *)
(** * Slices of frames *)
(** The position of a bound [i] in an axis of [n] values *)
Definition resolves (n : nat) (i : Z) (k : nat) : Prop :=
  (0 <= i < Z.of_nat n)%Z /\ Z.of_nat k = i \/ (Z.of_nat n <= i)%Z /\ k = n \/
  (- Z.of_nat n <= i < 0)%Z /\ Z.of_nat k = (Z.of_nat n + i)%Z \/ (i < - Z.of_nat n)%Z /\ k = 0.
Lemma py_bound_resolves n i k : resolves n i k -> py_bound n i = k.
Proof. unfold resolves, py_bound. intros H. destruct (Z.ltb_spec i 0); lia. Qed.
(** A slice of an axis, with bounds left out or negative *)
Theorem C53_slices (A : Type) (l : list A) (s : slice) lo hi :
  (match fst s with None => lo = 0 | Some a => resolves (length l) a lo end) ->
  (match snd s with None => hi = length l | Some b => resolves (length l) b hi end) ->
  length (take_slice s l) = hi - lo /\ (forall i d, i < hi - lo -> nth i (take_slice s l) d = nth (lo + i) l d).
Proof.
  destruct s as [a b]. cbn [fst snd]. intros HA HB. unfold take_slice, py_slice. cbn [fst snd]. cbv zeta.
  assert (EA : py_bound (length l) (match a with Some a => a | None => 0%Z end) = lo).
  { destruct a; [apply py_bound_resolves; exact HA|]. subst lo. unfold py_bound. cbn. lia. }
  assert (EB : py_bound (length l) (match b with Some b => b | None => Z.of_nat (length l) end) = hi).
  { destruct b; [apply py_bound_resolves; exact HB|]. subst hi. unfold py_bound. replace (Z.of_nat (length l) <? 0)%Z with false by lia. lia. }
  rewrite EA, EB. assert (HH : hi <= length l).
  { destruct b as [z|]; [|lia]. unfold resolves in HB. lia. }
  split.
  - rewrite firstn_length, skipn_length. lia.
  - intros i d Hi. rewrite nth_firstn by exact Hi. rewrite nth_skipn. f_equal. lia.
Qed.
Print Assumptions C53_slices.
(** Without bounds the frame is unchanged *)
Theorem C53_whole (V : Type) (video : gen (list (frame V))) :
  crop video (Some ((None, None), (None, None))) = video.
Proof.
  assert (T : forall A (l : list A), take_slice (None, None) l = l).
  { intros A l. unfold take_slice, py_slice, py_bound. cbn [fst snd]. cbv zeta. cbn [Z.ltb Z.compare]. replace (Z.of_nat (length l) <? 0)%Z with false by lia.
    replace (Z.to_nat (Z.min (Z.max 0 0) (Z.of_nat (length l)))) with 0 by lia. replace (Z.to_nat (Z.min (Z.max (Z.of_nat (length l)) 0) (Z.of_nat (length l)))) with (length l) by lia.
    rewrite Nat.sub_0_r. apply firstn_all. }
  assert (F : forall f : frame V, crop_frame (None, None) (None, None) f = f).
  { intros f. unfold crop_frame. rewrite T. rewrite <- (map_id f) at 2. apply map_ext. intros r. apply T. }
  unfold crop. destruct video as [ys e]. cbn [yields ending]. induction ys as [|fr ys IH]; [reflexivity|].
  cbn [gen_each bind]. rewrite IH. cbn [yields ending]. do 2 f_equal. rewrite <- (map_id fr) at 2. apply map_ext. exact F.
Qed.
Print Assumptions C53_whole.
Example C53_slices_example : take_slice (None, Some (-1)%Z) [1; 2; 3; 4] = [1; 2; 3] /\ take_slice (Some (-3)%Z, None) [1; 2; 3; 4] = [2; 3; 4] /\
  take_slice (Some 2%Z, Some 9%Z) [1; 2; 3; 4] = [3; 4] /\ take_slice (Some (-9)%Z, Some 2%Z) [1; 2; 3; 4] = [1; 2] /\
  resolves 4 (-1) 3 /\ resolves 4 9 4 /\ resolves 4 (-9) 0 /\ resolves 4 2 2.
Proof. unfold resolves. repeat split; lia. Qed.

(* ------------------------------------------------------------------ *)
(** * Cutoffs in a mode that is neither of the two *)
Theorem C59_mode h w kimax kjmax : _determine_cutoff_indices h w kimax kjmax OtherMode = Raise ValueError.
Proof. reflexivity. Qed.
Print Assumptions C59_mode.

(* ------------------------------------------------------------------ *)
(** * Rings of width zero; masks that are combined *)
Section Sectors.
  Variable K : OFld.
  Variable pi : K.
  Variable floor : K -> Z.
  Local Notation "0" := (f0 K).
  Local Notation fZ := (fZ K).
  (** The largest length does not matter *)
  Theorem C61_no_width (kmap anglemap : mat K) angle sector :
    0%nat < mh kmap -> 0%nat < mw kmap ->
    (fle (fopp K (fZ 180)) angle -> fle angle (fZ 180) -> flt K 0 sector = true -> fle sector (fZ 180) ->
       fft2_sector_indexmap K pi floor kmap anglemap angle sector 0 = Raise ZeroDivisionError) /\
    (fle (fopp K (fZ 90)) angle -> fle angle (fZ 90) -> flt K 0 sector = true -> fle sector (fZ 180) ->
       sector_indexmap K pi floor kmap anglemap angle sector 0 = Raise ZeroDivisionError).
  Proof.
    intros Hh Hw.
    assert (N : forall stop, np_arange K floor stop 0 = Raise ZeroDivisionError) by (intros stop; unfold np_arange; rewrite (flt_irrefl K); reflexivity).
    destruct (max_entry_ok K kmap Hh Hw) as (kmax & M & _).
    split; intros H1 H2 H3 H4; [unfold fft2_sector_indexmap|unfold sector_indexmap]; unfold fle in *; rewrite H1, H2, H4; cbn [orb];
      (replace (fleb K sector 0) with false by (symmetry; unfold fleb; rewrite H3; reflexivity)); cbn [orb]; rewrite M; cbn [bind]; rewrite N; reflexivity.
  Qed.
End Sectors.
Print Assumptions C61_no_width.
Example C61_no_width_example (floor : QcO -> Z) (pi : QcO) :
  let m := Mat 2 3 (fun _ _ => f1 QcO) in
  fft2_sector_indexmap QcO pi floor m m (f1 QcO) (fZ QcO 2) (f0 QcO) = Raise ZeroDivisionError /\
  sector_indexmap QcO pi floor m m (f1 QcO) (fZ QcO 2) (f0 QcO) = Raise ZeroDivisionError.
Proof.
  intros m. assert (H : 0 < mh m /\ 0 < mw m) by (split; cbn; apply Nat.lt_0_succ).
  destruct (@C61_no_width QcO pi floor m m (f1 QcO) (fZ QcO 2) (proj1 H) (proj2 H)) as [A B].
  split; [apply A|apply B]; vm_compute; reflexivity.
Qed.
(** a & b: axes of one value are repeated, other axes have to agree *)
Theorem C62_broadcast (a b : mat bool) :
  ((mh a = mh b \/ mh a = 1 \/ mh b = 1) /\ (mw a = mw b \/ mw a = 1 \/ mw b = 1) ->
    exists c, mat_and a b = Ok c /\ (mh c = if mh a =? 1 then mh b else mh a) /\ (mw c = if mw a =? 1 then mw b else mw a) /\
      forall i j, i < mh c -> j < mw c ->
        mat_at c i j = mat_at a (if mh a =? 1 then 0 else i) (if mw a =? 1 then 0 else j) && mat_at b (if mh b =? 1 then 0 else i) (if mw b =? 1 then 0 else j)) /\
  (~ ((mh a = mh b \/ mh a = 1 \/ mh b = 1) /\ (mw a = mw b \/ mw a = 1 \/ mw b = 1)) -> mat_and a b = Raise ValueError).
Proof.
  unfold mat_and, spread. split.
  - intros H. replace (((mh a =? mh b) || (mh a =? 1) || (mh b =? 1)) && ((mw a =? mw b) || (mw a =? 1) || (mw b =? 1)))%bool with true
      by (destruct (Nat.eqb_spec (mh a) (mh b)), (Nat.eqb_spec (mh a) 1), (Nat.eqb_spec (mh b) 1), (Nat.eqb_spec (mw a) (mw b)), (Nat.eqb_spec (mw a) 1), (Nat.eqb_spec (mw b) 1); try reflexivity; exfalso; lia).
    eexists. split; [reflexivity|]. cbn [mh mw mat_at]. repeat split.
  - intros H. replace (((mh a =? mh b) || (mh a =? 1) || (mh b =? 1)) && ((mw a =? mw b) || (mw a =? 1) || (mw b =? 1)))%bool with false; [reflexivity|].
    symmetry. apply not_true_iff_false. intros E. apply H. lia.
Qed.
Print Assumptions C62_broadcast.
Example C62_broadcast_example : exists c, mat_and (Mat 2 3 (fun i j => (i + j <? 2)%nat)) (Mat 1 3 (fun i j => (0 <? j)%nat)) = Ok c /\
  mh c = 2 /\ mw c = 3 /\ mat_at c 0 1 = true /\ mat_at c 1 1 = false /\ mat_at c 0 0 = false /\
  mat_and (Mat 2 3 (fun i j => true)) (Mat 3 3 (fun i j => true)) = Raise ValueError.
Proof. eexists. repeat split. Qed.

(* ------------------------------------------------------------------ *)
(** * Configuration at import *)
Theorem C63_initial : fftlib initial = "numpy" /\ rfft2lib initial = "numpy" /\ showlib initial = "matplotlib" /\ verbose initial = 0%Z /\
  fft_threads initial = 1%Z /\ numba_threads initial = 1%Z /\ (forall c level, warned (set_verbose c level) = false) /\
  (forall c n, value (set_fft_threads c n) = Ok (fft_threads c) /\ after (set_fft_threads c n) = Config (rfft2lib c) (fftlib c) (verbose c) (showlib c) n (numba_threads c) /\ warned (set_fft_threads c n) = false).
Proof. repeat split. Qed.
Print Assumptions C63_initial.

(** Chunks have at least [level] and at most [count] frames *)
Theorem C36_chunk_refused chunk_size count level : count < level \/ (exists c, chunk_size = Some c /\ (count < c \/ c < level)) ->
  _default_chunk_size chunk_size count level = Raise ValueError.
Proof.
  unfold _default_chunk_size. intros H. destruct (Nat.ltb_spec count level); [reflexivity|]. destruct H as [H|(c & -> & H)]; [lia|].
  destruct (Nat.ltb_spec count c); [reflexivity|]. destruct (Nat.ltb_spec c level); [reflexivity|]. lia.
Qed.
Print Assumptions C36_chunk_refused.
Example C36_chunk_example : _default_chunk_size (Some 9) 8 5 = Raise ValueError /\ _default_chunk_size (Some 4) 8 5 = Raise ValueError /\
  _default_chunk_size None 4 5 = Raise ValueError /\ _default_chunk_size (Some 8) 8 5 = Ok 8.
Proof. repeat split. Qed.

(** Masks have the shape of the leading axes of the frames and need the time on axis 0; the axis has to exist *)
Theorem C42_mask_errors A (f : nd A) (axis : Z) div (mask : nd bool) :
  ((axis < - Z.of_nat (length (nshape f)) \/ Z.of_nat (length (nshape f)) <= axis)%Z -> reshape_input f axis div (Some mask) = Raise IndexError /\ reshape_input f axis div None = Raise IndexError) /\
  ((0 < axis < Z.of_nat (length (nshape f)))%Z -> reshape_input f axis div (Some mask) = Raise ValueError) /\
  (nshape f <> [] -> firstn (length (nshape mask)) (tl (nshape f)) <> nshape mask -> reshape_input f 0 div (Some mask) = Raise IndexError).
Proof.
  unfold reshape_input. split; [|split].
  - intros H. assert (E : py_index (length (nshape f)) axis = None).
    { unfold py_index. cbv zeta. destruct (Z.ltb_spec axis 0); match goal with |- (if ?c then _ else _) = _ => replace c with false by lia end; reflexivity. }
    rewrite E. split; reflexivity.
  - intros H. assert (E : py_index (length (nshape f)) axis = Some (Z.to_nat axis)).
    { unfold py_index. cbv zeta. destruct (Z.ltb_spec axis 0); [lia|]. match goal with |- (if ?c then _ else _) = _ => replace c with true by lia end. reflexivity. }
    rewrite E. replace (negb (Z.to_nat axis =? 0)) with true by lia. reflexivity.
  - intros H0 H. destruct f as [s v]. cbn [nshape] in *. destruct s as [|n s]; [congruence|]. cbn [tl] in H.
    assert (E : py_index (length (n :: s)) 0 = Some 0) by (unfold py_index; change (0 <? 0)%Z with false; cbv zeta iota; cbn [List.length]; match goal with |- (if ?c then _ else _) = _ => replace c with true by lia end; reflexivity).
    rewrite E. cbn [Nat.eqb negb]. unfold index_mask. cbn [nshape]. unfold list_eqb. destruct (list_eq_dec _ _ _); [contradiction|]. reflexivity.
Qed.
Print Assumptions C42_mask_errors.
Example C42_mask_errors_example : reshape_input (Nd [2; 2; 3] (seq 0 12)) 0 None (Some (Nd [3] [true; true; false])) = Raise IndexError /\
  reshape_input (Nd [2; 2; 3] (seq 0 12)) 1 None (Some (Nd [3] [true; true; false])) = Raise ValueError /\
  reshape_input (Nd [2; 2; 3] (seq 0 12)) 3 None (Some (Nd [3] [true; true; false])) = Raise IndexError.
Proof. repeat split. Qed.
