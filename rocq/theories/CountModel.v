(** Effective counts of multilevel data, multitau.py 1278-1400, 1535-1556, 1613-1641.
    Numbers are exact; None is a value that is not finite (nan). *)
From Verif Require Import Base Ordered MultiModel LevelModel.
Set Implicit Arguments.

Section Count.
  Variable K : OFld.
  Local Notation "0" := (f0 K).
  Local Infix "+" := (fadd K).
  Local Infix "*" := (fmul K).
  Local Infix "-" := (fsub K).
  Local Infix "/" := (fdiv K).
  Definition square (x : K) : K := x * x.

  (** np.convolve(a, v, "same") of numpy: the longer array first; as many entries as the
      longer array has, of which the first is the entry (len - 1) // 2 of the full
      convolution, where len is the length of the shorter array. *)
  Definition full_convolution (a v : list K) (k : nat) : K :=
    Sum (fmon K) (seq 0%nat (length a)) (fun i => if (i <=? k)%nat then nth i a 0 * nth (Nat.sub k i) v 0 else 0).
  Definition np_convolve_same (a v : list K) : res (list K) :=
    match a, v with
    | [], _ | _, [] => Raise ValueError
    | _, _ =>
        let '(a, v) := if (length a <? length v)%nat then (v, a) else (a, v) in
        Ok (map (fun i => full_convolution a v (Nat.add i (Nat.div (Nat.sub (length v) 1) 2))) (seq 0%nat (length a)))
    end.

  (** data[0::step] *)
  Definition every (step : nat) (data : list K) : list K :=
    map (fun k => nth (Nat.mul k step) data 0) (seq 0%nat (Nat.div (Nat.sub (Nat.add (length data) step) 1) step)).

  (** norm**3 / data, multitau.py 1330; a denominator of zero does not give a number *)
  Definition cube_ratio (norm data : K) : option K :=
    if (flt K 0 data || flt K data 0)%bool then Some (norm * norm * norm / data) else None.

  (** One level, multitau.py 1319-1334 *)
  Definition count_row (count : list K) (size : nat) (binning : Z) (l : nat) : res (list (option K)) :=
    let kernel := if (binning =? BINNING_MEAN)%Z then triangular_kernel K l else [f1 K] in
    let* data := np_convolve_same (map square kernel) (map square count) in
    let* norm := np_convolve_same kernel count in
    let data_sliced := firstn size (every (2 ^ l)%nat data) in
    let norm_sliced := firstn size (every (2 ^ l)%nat norm) in
    Ok (map (fun p => cube_ratio (snd p) (fst p)) (combine data_sliced norm_sliced) ++ repeat None (Nat.sub size (length data_sliced))).

  (** multilevel_count, multitau.py 1278-1336.  The binning mode is not inspected. *)
  Definition multilevel_count (count : list K) (level_size binning : Z) : res (list (list (option K))) :=
    if (level_size <? 2)%Z then Raise ValueError else
    let size := Z.to_nat level_size in
    let level := levels_of size (length count) in
    fold_left (fun r l => let* rows := r in let* row := count_row count size binning l in Ok (rows ++ [row])) (seq 0%nat (Nat.add level 1)) (Ok []).

  (** np.linspace(start, stop, num) *)
  Definition linspace (start stop : K) (num : nat) : list K :=
    if (num =? 1)%nat then [start]
    else map (fun i => start + fnat K i * ((stop - start) / fnat K (Nat.sub num 1))) (seq 0%nat num).

  (** count_slow/c[:,None], multitau.py 1362-1365, 1395-1398 *)
  Definition halve_levels (rows : list (list (option K))) : list (list (option K)) :=
    map (fun p => map (option_map (fun x => x / fnat K (2 ^ (fst p))%nat)) (snd p)) (combine (seq 0%nat (length rows)) rows).

  (** The slow part of both functions, multitau.py 1360-1367, 1393-1400; [factor] is 2 for
      two cameras and 1 for one *)
  Definition slow_count (factor : K) (count : nat) (level_size binning : Z) : res (list (list (option K))) :=
    let count_slow := map (fun x => x * factor) (linspace (fnat K count) (f1 K) count) in
    let* rows := multilevel_count count_slow level_size binning in
    let rows := if (binning =? BINNING_MEAN)%Z then rows else halve_levels rows in
    Ok (skipn 1%nat rows).

  (** (count - level_size), which may be negative *)
  Definition minus_level (count : nat) (level_size : Z) : K :=
    fnat K count - (if (0 <=? level_size)%Z then fnat K (Z.to_nat level_size) else fopp K (fnat K (Z.to_nat (- level_size)))).

  (** ccorr_multi_count, multitau.py 1338-1367, for period >= 0 *)
  Definition ccorr_multi_count (count period : nat) (level_size binning : Z) : res (list K * list (list (option K))) :=
    if (period =? 0)%nat then Raise ZeroDivisionError else
    if (level_size <? 0)%Z then Raise ValueError else
    let two := fnat K 2 in
    let count_fast := linspace (fnat K count / fnat K period * two) (minus_level count level_size / fnat K period * two) (Nat.mul period (Z.to_nat level_size)) in
    let* count_slow := slow_count two count level_size binning in
    Ok (count_fast, count_slow).

  (** acorr_multi_count, multitau.py 1369-1400, for period >= 0 *)
  Definition acorr_multi_count (count period : nat) (level_size binning : Z) : res (list K * list (list (option K))) :=
    if (period =? 0)%nat then Raise ZeroDivisionError else
    if (level_size <? 0)%Z then Raise ValueError else
    let count_fast := linspace (fnat K count / fnat K period) (minus_level count level_size / fnat K period) (Nat.mul period (Z.to_nat level_size)) in
    match nth_error count_fast period with
    | None => Raise IndexError
    | Some x =>
        let count_fast := linspace 0 x (Nat.add period 1) ++ skipn (Nat.add period 1) count_fast in
        let* count_slow := slow_count (f1 K) count level_size binning in
        Ok (count_fast, count_slow)
    end.

  (** log_average_count, multitau.py 1535-1556 *)
  Definition log_average_count (count : list K) (size : Z) : res (list nat * list (option K)) :=
    let* data := multilevel_count count (size * 2)%Z BINNING_MEAN in
    merge_full (Z.to_nat (size * 2)) data.

  (** log_merge_count, multitau.py 1613-1641; [nslow] is the length of the last axis of
      [multi_count] *)
  Definition log_merge_count (lin_count : list K) (nslow : nat) (multi_count : list (list (option K))) (binning : Z) : res (list nat * list (option K)) :=
    let nfast := length lin_count in
    if (nslow =? 0)%nat then Raise ZeroDivisionError
    else
      let period := Nat.div nfast nslow in
      if negb (Nat.modulo nfast nslow =? 0)%nat then Raise ValueError
      else
        let* ldata := multilevel_count lin_count (Z.of_nat nslow) binning in
        let* fast := merge_full nslow ldata in
        let* slow := merge_half nslow multi_count in
        Ok (fst fast ++ map (fun x => Nat.mul (Nat.mul 2 period) x) (fst slow), snd fast ++ snd slow).
End Count.
