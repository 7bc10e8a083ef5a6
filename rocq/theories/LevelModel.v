(** Multilevel averaging and log-spaced merging, multitau.py 1256-1654, for one pixel.
    None is NaN (missing data); int64 times do not overflow. *)
From Verif Require Import Base Ordered AvgModel Kernels NormModel MultiModel.
Set Implicit Arguments.

(** triangular_kernel, multitau.py 1256-1276 *)
Section Kernel.
  Variable K : Fld.
  Definition triangular_kernel (n : nat) : list K :=
    let power := fnat K (2 ^ n) in
    let size := for_range 0 n (fun _ size => size * 2 + 1) 1 in
    let out := repeat (f0 K) size in
    let out := for_range 0 (size / 2) (fun i out =>
        let out := upd out i (fdiv K (fdiv K (fnat K (i + 1)) power) power) in
        upd out (size - i - 1) (nth i out (f0 K))) out in
    upd out (size / 2) (fdiv K (f1 K) power).
End Kernel.

(** The number of levels: while size * 2**level < n: level += 1, multitau.py 1311-1313 and
    1443-1444.  [n] steps are enough. *)
Fixpoint count_levels (fuel size n level : nat) : nat :=
  match fuel with
  | O => level
  | S fuel => if size * 2 ^ level <? n then count_levels fuel size n (S level) else level
  end.
Definition levels_of (size n : nat) : nat := count_levels n size n 0.

(** _inspect_binning, multitau.py 1402-1405 *)
Definition _inspect_binning (binning : Z) : res Z :=
  if ((binning =? BINNING_CHOOSE) || (binning =? BINNING_MEAN) || (binning =? BINNING_FIRST))%bool%Z then Ok binning else Raise ValueError.

Section Multilevel.
  Variable V : Type.
  Variable v0 : V.
  (** convolve, called without output array *)
  Variable conv : list V -> res (list V).
  (** choose_data, multitau.py 85-101: one of the two entries of each pair; [r] is the outcome
      of r < 0.5 *)
  Definition choose_level (r : bool) (f : list V) : list V :=
    if r then strided v0 1 (length f) f else strided v0 0 (length f - 1) f.
  (** One row: at most [size] values, filled up with NaN, multitau.py 1451-1457 *)
  Definition level_row (size : nat) (data : list V) : list (option V) :=
    let sliced := firstn size data in
    map Some sliced ++ repeat None (size - length sliced).
  (** The data of the next level, multitau.py 1459-1464 *)
  Definition next_level (binning : Z) (r : bool) (data : list V) : res (list V) :=
    if (binning =? BINNING_MEAN)%Z then let* c := conv data in Ok (strided v0 0 (length c) c)
    else if (binning =? BINNING_FIRST)%Z then Ok (strided v0 0 (length data) data)
    else Ok (choose_level r data).
  (** The loop over levels, multitau.py 1450-1464: [more] levels follow this one *)
  Fixpoint level_rows (size : nat) (binning : Z) (r : nat -> bool) (l more : nat) (data : list V) : res (list (list (option V))) :=
    match more with
    | O => Ok [level_row size data]
    | S more =>
        let* next := next_level binning (r l) data in
        let* rows := level_rows size binning r (S l) more next in
        Ok (level_row size data :: rows)
    end.
  (** multilevel of real data, multitau.py 1407-1463 *)
  Definition multilevel (data : list V) (level_size : Z) (binning : Z) (r : nat -> bool) : res (list (list (option V))) :=
    let* binning := _inspect_binning binning in
    if (level_size <? 2)%Z then Raise ValueError
    else
      let size := Z.to_nat level_size in
      level_rows size binning r 0 (levels_of size (length data)) data.

  (** merge_multilevel, multitau.py 1465-1504: [n] is the length of the last axis *)
  Definition merge_half (W : Type) (n : nat) (data : list (list W)) : res (list nat * list W) :=
    if negb (n mod 2 =? 0) then Raise ValueError
    else Ok (flat_map (fun i => map (fun k => k * 2 ^ i) (skipn (n / 2) (seq 0 n))) (seq 0 (length data)),
             flat_map (skipn (n / 2)) data).
  Definition merge_full (W : Type) (n : nat) (data : list (list W)) : res (list nat * list W) :=
    match data with
    | [] => Raise IndexError
    | y0 :: rest =>
        let* xy := merge_half n rest in
        Ok (seq 0 n ++ map (fun x => x * 2) (fst xy), y0 ++ snd xy)
    end.

  (** log_average, multitau.py 1506-1533 *)
  Definition log_average (data : list V) (size : Z) (r : nat -> bool) : res (list nat * list (option V)) :=
    if (size <? 1)%Z then Raise ValueError
    else
      let* ldata := multilevel data (size * 2) BINNING_MEAN r in
      merge_full (Z.to_nat (size * 2)) ldata.

  (** _period_from_data and log_merge, multitau.py 1558-1611; [nslow] is the length of the
      last axis of [multi] *)
  Definition log_merge (lin : list V) (nslow : nat) (multi : list (list (option V))) (binning : Z) (r : nat -> bool) : res (list nat * list (option V)) :=
    let* binning := _inspect_binning binning in
    let nfast := length lin in
    if nslow =? 0 then Raise ZeroDivisionError
    else
      let period := nfast / nslow in
      if negb (nfast mod nslow =? 0) then Raise ValueError
      else
        let* ldata := multilevel lin (Z.of_nat nslow) binning r in
        let* fast := merge_full nslow ldata in
        let* slow := merge_half nslow multi in
        Ok (fst fast ++ map (fun x => 2 * period * x) (fst slow), snd fast ++ snd slow).
End Multilevel.

(** t_multilevel, multitau.py 1644-1654, for [levels] rows of [n] times *)
Definition t_multilevel (levels n period : nat) : list (list nat) :=
  snd (for_range 0 levels (fun _ s => let '(x, out) := s in (map (fun t => t * 2) x, out ++ [x]))
        (map (fun k => k * period * 2) (seq 0 n), [])).

(** convolve of real and of complex arrays, whose kernel treats both parts alike; [junk] is
    the content of the array allocated for the result *)
Definition real_conv (K : OFld) (junk : nat -> K) (a : list K) : res (list K) := convolve K false a (fresh K junk a).
Definition complex_conv (K : OFld) (junk : nat -> K) (a : list (Cx K)) : res (list (Cx K)) :=
  let* re := real_conv K junk (map cre a) in
  let* im := real_conv K junk (map cim a) in
  Ok (combine re im).
(** multilevel of complex data, multitau.py 1437-1441 *)
Definition multilevel_complex (K : OFld) (junk : nat -> K) (data : list (Cx K)) (level_size binning : Z) (fold : option bool) (r : nat -> bool) : res (list (list (option (Cx K)))) :=
  let* binning := _inspect_binning binning in
  if (level_size <? 2)%Z then Raise ValueError
  else match fold with
  | None => Raise ValueError
  | Some fold =>
      let* data := if fold then fold_data true data 0 else Ok data in
      multilevel (c0 K) (complex_conv K junk) data level_size binning r
  end.
