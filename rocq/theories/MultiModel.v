(** Model of the binning functions and of the in-memory multiple-tau algorithm,
    multitau.py 50-401, for one pixel.  Printing, reshaping of the input and of the
    output (core.py 254-388), [axis] and copies of the data are left out.  The outcome
    of _is_aligned may differ from call to call: [aligned j] is that of level [j].
    Random numbers are oracles. *)
From Verif Require Import Base Kernels CoreModel FftModel NormModel CorrModel.
From Coq Require Import String.
Open Scope string_scope.
Open Scope nat_scope.
Local Notation length := List.length.
Set Implicit Arguments.

(** multitau.py 50-56 *)
Definition BINNING_FIRST : Z := 0.
Definition BINNING_MEAN : Z := 1.
Definition BINNING_CHOOSE : Z := 2.

(** f[a:b:2] for 0 <= a and b <= len(f) *)
Definition strided {A} (d : A) (a b : nat) (f : list A) : list A :=
  map (fun k => nth (a + 2 * k) f d) (seq 0 ((b - a + 1) / 2)).

Section Binning.
  Variable G : QGrp.

  (** _mean and mean, _core_nb.py 27-35 *)
  Definition _mean (a b : G) : G := ahalf G (madd G a b).

  (** mean_data_parallel and mean_data_cpu, multitau.py 61-83; the numpy ufunc is
      applied elementwise *)
  Definition mean_data (f : list G) : list G :=
    let n := length f in
    map (fun p => _mean (fst p) (snd p)) (combine (strided (m0 G) 0 (n - 1) f) (strided (m0 G) 1 n f)).

  (** choose_data, multitau.py 85-101; [r] is the outcome of r < 0.5 *)
  Definition choose_data (r : bool) (f : list G) : list G :=
    let n := length f in
    if r then strided (m0 G) 1 n f else strided (m0 G) 0 (n - 1) f.

  (** slice_data, multitau.py 104-109 *)
  Definition slice_data (f : list G) : list G := strided (m0 G) 0 (length f) f.

  (** _get_binning_function, multitau.py 133-144 (for a supported binning) *)
  Definition bin_data (binning : Z) (r : bool) (f : list G) : list G :=
    if (binning =? BINNING_MEAN)%Z then mean_data f
    else if (binning =? BINNING_FIRST)%Z then slice_data f
    else choose_data r f.
End Binning.

(** _default_method_and_binning, multitau.py 111-131 *)
Definition _default_method_and_binning (method : option string) (binning : option Z) : res (string * Z) :=
  let method := match method with None => "corr" | Some m => m end in
  let* binning :=
    if (String.eqb method "corr" || String.eqb method "fft")%bool
    then Ok (match binning with None => BINNING_MEAN | Some b => b end)
    else if String.eqb method "diff"
    then Ok (match binning with None => BINNING_FIRST | Some b => b end)
    else Raise ValueError in
  let supported := if String.eqb method "diff" then [BINNING_CHOOSE; BINNING_FIRST]
                   else [BINNING_MEAN; BINNING_FIRST; BINNING_CHOOSE] in
  if in_list binning supported then Ok (method, binning) else Raise ValueError.

(** The loop "while length // 2**k >= n: k += 1", multitau.py 152-153 and 755-756.  It
    ends after at most [length + 1] rounds if n > 0 (n = 0 would loop forever and is
    not modelled). *)
Fixpoint count_levels (fuel len n k : nat) : nat :=
  match fuel with
  | O => k
  | S fuel => if n <=? len / 2 ^ k then count_levels fuel len n (S k) else k
  end.

(** _determine_lengths, multitau.py 146-157 *)
Definition _determine_lengths (len n period : nat) (nlevel : option Z) : res (nat * nat * nat) :=
  if n <=? 4 then Raise AssertionError else
  let nlevel := match nlevel with
                | None => (Z.of_nat (count_levels (S len) len n 0) - 1)%Z
                | Some l => l
                end in
  if (nlevel <? 0)%Z then Raise AssertionError
  else Ok (period * n, n, Z.to_nat nlevel).

Section Multi.
  Variable K : Fld.
  Notation C := (Cx K).
  Variable V : Type.
  Variable zero : V.
  Variable complex : bool.
  (** ccorr and acorr (CorrModel.v) for this output type; the first argument is the
      outcome of _is_aligned *)
  Variable cc : bool -> list C -> list C -> option (list Z) -> option (list Z) -> option nat ->
    option Z -> option string -> option (list K) -> option (list K) -> option (cdata K V) -> res (cdata K V).
  Variable ac : bool -> list C -> option (list Z) -> option (list K) -> option nat ->
    option Z -> option string -> option (cdata K V) -> res (cdata K V).

  (** One row of the zero arrays out_slow, count_slow, sq, m1, m2, multitau.py 223-250 *)
  Definition slow_row (cross correlate : bool) (norm : Z) (n : nat) : cdata K V :=
    let shape := if complex then n * 2 + 1 else n in
    let out := repeat zero shape in
    let count := repeat 0 n in
    let m1 := if has_flag norm NORM_SUBTRACTED then Some (repeat (c0 K) shape) else None in
    let m2 := if cross then m1 else None in
    if correlate
    then DCorr out count (if has_flag norm NORM_STRUCTURED then Some (repeat (f0 K) shape) else None) m1 m2
    else DDiff out count m1 m2.

  Variable aligned : nat -> bool.
  (** The outcome of r < 0.5 in call number [k] of the binning function at level [j] *)
  Variable rs : nat -> nat -> bool.

  (** The loop over the levels, multitau.py 261-288, for two signals *)
  Fixpoint multi_levels (todo i : nat) (binning norm : Z) (method : string) (n_slow : nat)
      (f1 f2 : list C) (f1s f2s : option (list K)) : res (list (cdata K V)) :=
    match todo with
    | O => Ok []
    | S todo =>
        let f1 := bin_data (cgrp K) binning (rs i 0) f1 in
        let f2 := bin_data (cgrp K) binning (rs i 1) f2 in
        let f1s := option_map (bin_data (fgrp K) binning (rs i 2)) f1s in
        let f2s := option_map (bin_data (fgrp K) binning (rs i 3)) f2s in
        let correlate := negb (String.eqb method "diff") in
        let* row := cc (aligned (S i)) f1 f2 None None (Some n_slow) (Some norm) (Some method) f1s f2s
                       (Some (slow_row true correlate norm n_slow)) in
        let* rest := multi_levels todo (S i) binning norm method n_slow f1 f2 f1s f2s in
        Ok (row :: rest)
    end.
  (** and for one signal *)
  Fixpoint multi_levels_auto (todo i : nat) (binning norm : Z) (method : string) (n_slow : nat)
      (f : list C) (fs : option (list K)) : res (list (cdata K V)) :=
    match todo with
    | O => Ok []
    | S todo =>
        let f := bin_data (cgrp K) binning (rs i 0) f in
        let fs := option_map (bin_data (fgrp K) binning (rs i 1)) fs in
        let correlate := negb (String.eqb method "diff") in
        let* row := ac (aligned (S i)) f None fs (Some n_slow) (Some norm) (Some method)
                       (Some (slow_row false correlate norm n_slow)) in
        let* rest := multi_levels_auto todo (S i) binning norm method n_slow f fs in
        Ok (row :: rest)
    end.

  (** ccorr_multi, multitau.py 303-356, and _compute_multi, multitau.py 159-301, with f2 given *)
  Definition multi_cross (f1 f2 : list C) (t1 t2 : option (list Z)) (period level_size : nat)
      (binning : option Z) (nlevel : option Z) (norm : option Z) (method : option string)
      : res (cdata K V * list (cdata K V)) :=
    let* (method, binning) := _default_method_and_binning method binning in
    let* norm := _default_norm norm method true in
    let correlate := (String.eqb method "corr" || String.eqb method "fft")%bool in
    let* (ts, level_size) := _inspect_cross_arguments (length f1) (length f2) t1 t2 (Some level_size) None false in
    let t1 := option_map fst ts in
    let t2 := option_map snd ts in
    let* (n_fast, n_slow, nlevel) := _determine_lengths (length f1) level_size period nlevel in
    let keep := (has_flag norm NORM_STRUCTURED && correlate)%bool in
    let f1s := if keep then Some (abs2 f1) else None in
    let f2s := if keep then Some (abs2 f2) else None in
    let* data_fast := cc (aligned 0) f1 f2 t1 t2 (Some n_fast) (Some norm) (Some method) f1s f2s None in
    let* data_slow := multi_levels nlevel 0 binning norm method n_slow f1 f2 f1s f2s in
    Ok (data_fast, data_slow).

  (** acorr_multi, multitau.py 358-401, and _compute_multi with f2 = None *)
  Definition multi_auto (f : list C) (t : option (list Z)) (period level_size : nat)
      (binning : option Z) (nlevel : option Z) (norm : option Z) (method : option string)
      : res (cdata K V * list (cdata K V)) :=
    let* (method, binning) := _default_method_and_binning method binning in
    let* norm := _default_norm norm method false in
    let correlate := (String.eqb method "corr" || String.eqb method "fft")%bool in
    let* (t, level_size) := _inspect_auto_arguments (length f) t (Some level_size) None in
    let* (n_fast, n_slow, nlevel) := _determine_lengths (length f) level_size period nlevel in
    let fs := if (has_flag norm NORM_STRUCTURED && correlate)%bool then Some (abs2 f) else None in
    let* data_fast := ac (aligned 0) f t fs (Some n_fast) (Some norm) (Some method) None in
    let* data_slow := multi_levels_auto nlevel 0 binning norm method n_slow f fs in
    Ok (data_fast, data_slow).
End Multi.

Section MultiApi.
  Variable K : Fld.
  Variable W : nat -> Cx K.
  Definition ccorr_multi := multi_cross (f0 K) false (ccorr W).
  Definition ccorr_multi_complex := multi_cross (c0 K) true (ccorr_complex W).
  Definition acorr_multi := multi_auto (f0 K) false (acorr W).
  Definition acorr_multi_complex := multi_auto (c0 K) true (acorr_complex W).
End MultiApi.
