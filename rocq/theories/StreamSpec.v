(** Specification of the arguments of the streaming functions. *)
From Verif Require Import Base Kernels PairSpec FftModel FftProofs NormModel.
From Coq Require Import String.
Open Scope string_scope.
Open Scope nat_scope.
Open Scope list_scope.
Local Notation length := List.length.
Set Implicit Arguments.

(** The chunk size [h]: as given, or the number of frames, halved while more than 128
    frames and at least [level] are left. *)
Definition chunk_of (chunk_size : option nat) (total level h : nat) : Prop :=
  match chunk_size with
  | Some c => h = c
  | None => exists k, h = total / 2 ^ k /\ (0 < k -> level <= h /\ 128 < total / 2 ^ (k - 1)) /\ ~ (level <= h / 2 /\ 128 < h)
  end.

(** Arguments with which [total] frames with times [T1], [T2] are announced; the frames
    that are processed are [2^D] chunks of [h] frames. *)
Definition stream_args (t1 t2 : option (list Z)) (level : nat) (chunk_size count len : option nat) (T1 T2 : list Z) (total h D : nat) : Prop :=
  match t1 with
  | Some t => T1 = t /\ total = match count with Some c => c | None => length t end
  | None => T1 = arange total /\ (count = Some total \/ (count = None /\ len = Some total))
  end /\
  T2 = match t2 with Some t => t | None => T1 end /\ length T1 = length T2 /\ total <= length T1 /\
  chunk_of chunk_size total level h /\ 0 < level <= h /\ h <= total /\ h * 2 ^ D <= total < 2 * (h * 2 ^ D).

(** The times of chunk number [c] *)
Definition chunk_times (h c : nat) (T : list Z) : list Z := firstn h (skipn (c * h) T).

(** No two frames of chunks that are not neighbours are closer than [n]. *)
Definition far_apart (T1 T2 : list Z) (h nframes n : nat) : Prop :=
  forall a b, a < nframes -> b < nframes -> a / h + 1 < b / h \/ b / h + 1 < a / h ->
    (Z.of_nat n <= Z.abs (nth b T2 0 - nth a T1 0))%Z.

(** The fft method on frames with times [u] and [v]: distinct times, and [N] delays that
    are not more than there are (C13, C14). *)
Definition fft_fits (K : Fld) (W : nat -> Cx K) (u v : list Z) (N : nat) : Prop :=
  u <> [] /\ NoDup u /\ NoDup v /\
  exists L, covers (combine u u) (combine v v) L /\ @is_root K (L * 2) (W (L * 2)) /\ 0 < N <= L + 1.

(** The method and, if it is "fft", the times of every chunk and of neighbouring chunks *)
Definition method_fits (K : Fld) (W : nat -> Cx K) (method : string) (T1 T2 : list Z) (h nframes N : nat) : Prop :=
  method = "corr" \/ method = "diff" \/
  (method = "fft" /\ forall c c', (c + 1) * h <= nframes -> (c' + 1) * h <= nframes -> c <= c' + 1 -> c' <= c + 1 ->
     fft_fits W (chunk_times h c T1) (chunk_times h c' T2) N).

(** The method that is used: as given, by default "corr"; the binning of the
    multiple-tau functions, as given, by default the mean for "corr" and "fft". *)
Definition method_arg (method : option string) (m : string) : Prop :=
  (m = "corr" \/ m = "fft" \/ m = "diff") /\ (method = Some m \/ (method = None /\ m = "corr")).

(** The first [n] frames, minus the mean of the first [h] frames if [auto]. *)
Definition list_mean (K : Fld) (l : list (Cx K)) : Cx K :=
  (fdiv K (Sum (fmon K) l (@cre K)) (fnat K (length l)), fdiv K (Sum (fmon K) l (@cim K)) (fnat K (length l))).
Definition list_variance (K : Fld) (l : list (Cx K)) : K :=
  fdiv K (Sum (fmon K) l (fun x => cnorm2 (csub x (list_mean l)))) (fnat K (length l)).
Definition stream_signal (K : Fld) (auto : bool) (h n : nat) (f : list (Cx K)) : list (Cx K) :=
  if auto then map (fun x => csub x (list_mean (firstn h f))) (firstn n f) else firstn n f.

(** The sum of two data tuples, cell by cell *)
Definition plus_lists (M : CMon) (a b : list M) : list M := map (fun p => madd M (fst p) (snd p)) (combine a b).
Definition plus_opt (M : CMon) (a b : option (list M)) : option (list M) :=
  match a, b with Some a, Some b => Some (plus_lists M a b) | _, _ => None end.
Definition plus_data (K : Fld) (V : CMon) (d e : cdata K V) : cdata K V :=
  match d, e with
  | DCorr v c q s1 s2, DCorr v' c' q' s1' s2' =>
      DCorr (plus_lists V v v') (plus_lists natmon c c') (plus_opt (fmon K) q q') (plus_opt (cmon K) s1 s1') (plus_opt (cmon K) s2 s2')
  | DDiff v c s1 s2, DDiff v' c' s1' s2' =>
      DDiff (plus_lists V v v') (plus_lists natmon c c') (plus_opt (cmon K) s1 s1') (plus_opt (cmon K) s2 s2')
  | _, _ => DBad
  end.
Definition sum_data (K : Fld) (V : CMon) (l : list (cdata K V)) : cdata K V :=
  match l with d :: r => fold_left (@plus_data K V) r d | [] => DBad end.
(** The counts of a data tuple *)
Definition data_count (K : Fld) (V : CMon) (d : cdata K V) : list nat := match d with DCorr _ c _ _ _ => c | DDiff _ c _ _ => c | DBad => [] end.

(** Part number [c] of a list that is cut in parts of length [h] *)
Definition chunk_part (A : Type) (h c : nat) (l : list A) : list A := firstn h (skipn (c * h) l).
(** The result of mode "chunk": the sum of the results [part c] on each chunk alone *)
Definition sum_of_chunks (K : Fld) (V : CMon) (nchunks : nat) (part : nat -> res (cdata K V)) (d : cdata K V) : Prop :=
  exists ds, length ds = nchunks /\ (forall c, c < nchunks -> part c = Ok (nth c ds DBad)) /\ d = sum_data V ds.
