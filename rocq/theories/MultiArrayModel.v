(** Model of the in-memory multiple-tau algorithm for arrays of any number of axes: the binning functions,
    multitau.py 61-109, _compute_multi, 159-302, ccorr_multi and acorr_multi, 303-401, with the reshaping of the
    input and the output, core.py 254-322 and 334-388.

    Simplifications: as in MultiModel.v and AxisModel.v.  The memory layout is an oracle: [contig] is that of the
    input of _is_aligned, ccorr and acorr are given their own for every call.  A call with aout writes into its
    arrays: the level is replaced by the returned tuple.  A mask has as many axes as a frame.  The conversion of the
    data to numpy arrays, printing and the checks of dtypes are left out. *)
From Coq Require Import String.
From Verif Require Import Base Kernels CoreModel VecModel FftModel NormModel CorrModel NormArrayModel AxisModel MultiModel LevelArrayModel.
From Verif Require ReshapeModel.
Open Scope string_scope.
Open Scope nat_scope.
Local Notation length := List.length.
Set Implicit Arguments.

(** * Binning *)
Section BinArray.
  Variable G : QGrp.
  (** f[...,0:n-1:2] and f[...,1:n:2] moved to out_axis, multitau.py 66-69, 78-81 and 92-95 *)
  Definition halves_nd (data : nd G) (axis out_axis : Z) : res (nd G * nd G) :=
    let* f := moveaxis data axis (-1) in
    let n := last (shape f) 0 in
    let* f1 := moveaxis (slice_last f 0 2 ((n - 1 + 1) / 2)) (-1) out_axis in
    let* f2 := moveaxis (slice_last f 1 2 ((n - 1 + 1) / 2)) (-1) out_axis in
    Ok (f1, f2).
  (** mean_data_parallel, multitau.py 61-71 *)
  Definition mean_nd (data : nd G) (axis out_axis : Z) : res (nd G) :=
    let* (f1, f2) := halves_nd data axis out_axis in
    Ok (Nd (shape f1) (fun p => _mean G (at_ f1 p) (at_ f2 p))).
  (** choose_data, multitau.py 85-101; [r] is the outcome of r < 0.5 *)
  Definition choose_nd (r : bool) (data : nd G) (axis out_axis : Z) : res (nd G) :=
    let* (f1, f2) := halves_nd data axis out_axis in
    Ok (Nd (shape f1) (fun p => if r then at_ f2 p else at_ f1 p)).
  (** slice_data, multitau.py 104-109 *)
  Definition slice_nd (data : nd G) (axis out_axis : Z) : res (nd G) :=
    let* f := moveaxis data axis (-1) in
    moveaxis (slice_last f 0 2 ((last (shape f) 0 + 1) / 2)) (-1) out_axis.
  (** _get_binning_function, multitau.py 133-144 *)
  Definition bin_nd (binning : Z) (r : bool) (data : nd G) (axis out_axis : Z) : res (nd G) :=
    if (binning =? BINNING_MEAN)%Z then mean_nd data axis out_axis
    else if (binning =? BINNING_FIRST)%Z then slice_nd data axis out_axis
    else choose_nd r data axis out_axis.
  (** f1s = _bin(f1s, axis, new_axis) if it is tracked *)
  Definition bin_opt (binning : Z) (r : bool) (data : option (nd G)) (axis out_axis : Z) : res (option (nd G)) :=
    match data with None => Ok None | Some x => let* x := bin_nd binning r x axis out_axis in Ok (Some x) end.
End BinArray.

(** * Reshaping *)
(** f[:,mask], the mask over all axes of a frame *)
Definition mask_frames (A : Type) (f : nd A) (mask : nd bool) : res (nd A) :=
  match shape f with
  | [] => Raise IndexError
  | n :: s =>
      if list_eq_dec Nat.eq_dec s (shape mask)
      then Ok (Nd [n; length (positions mask)] (fun p => at_ f (nth 0 p 0 :: nth (nth 1 p 0) (positions mask) [])))
      else Raise IndexError
  end.
(** f.reshape(shape) if the shape may have negative entries; see ReshapeModel.reshape_Z *)
Definition reshape_to_Z (A : Type) (f : nd A) (s : list Z) : res (nd A) :=
  if existsb (fun d => (d <? 0)%Z) s then Raise ValueError else reshape_to f (map Z.to_nat s).
(** reshape_input, core.py 286-322 *)
Definition reshape_input_nd (A : Type) (f : nd A) (axis : Z) (thread_divisor : option Z) (mask : option (nd bool)) : res (nd A * list nat) :=
  let* axis := norm_axis (rank f) axis in
  let* f := match mask with
            | None => Ok f
            | Some mask => if negb (axis =? 0) then Raise ValueError else mask_frames f mask
            end in
  let n := nth axis (shape f) 0 in
  let kshape := del axis (shape f) in
  let force_2d := match mask with None => true | Some _ => false end in
  let* new_shape := ReshapeModel.thread_frame_shape kshape thread_divisor force_2d in
  let* g := reshape_to_Z f (ins axis (Z.of_nat n) new_shape) in
  Ok (g, kshape).
(** The number of the position of the mask *)
Definition place_in_mask (p : list nat) (l : list (list nat)) : option nat :=
  match filter (fun k => if list_eq_dec Nat.eq_dec (nth k l []) p then true else false) (seq 0 (length l)) with k :: _ => Some k | [] => None end.
(** The rules of broadcasting of an assignment out[...] = x, from the last axis to the first: an axis of x of length one
    is repeated, missing axes are added and leading axes of length one are dropped *)
Fixpoint broadcasts_rev (s t : list nat) : bool :=
  match s, t with
  | [], _ => true
  | d :: s, e :: t => ((d =? e) || (d =? 1)) && broadcasts_rev s t
  | d :: s, [] => (d =? 1) && broadcasts_rev s []
  end.
Definition broadcasts (s t : list nat) : bool := broadcasts_rev (rev s) (rev t).
Fixpoint broadcast_rev (s q : list nat) : list nat :=
  match s, q with
  | [], _ => []
  | d :: s, e :: q => (if d =? 1 then 0 else e) :: broadcast_rev s q
  | d :: s, [] => 0 :: broadcast_rev s []
  end.
Definition broadcast_index (s q : list nat) : list nat := rev (broadcast_rev (rev s) (rev q)).
(** The local function _reshape of reshape_output, core.py 362-374 *)
Definition reshape_one_nd (A : Type) (nan : A) (s : list nat) (mask : option (nd bool)) (x : nd A) : res (nd A) :=
  let* x := reshape_to x s in
  match mask with
  | None => Ok x
  | Some mask =>
      let lead := ReshapeModel.slice_neg (rank mask) (shape x) in
      let m := last (shape x) 0 in
      if broadcasts (shape x) (lead ++ [length (positions mask); m])%list then
        let k := length lead in
        Ok (Nd (lead ++ shape mask ++ [m])%list
              (fun q => match place_in_mask (firstn (rank mask) (skipn k q)) (positions mask) with
                        | Some i => at_ x (broadcast_index (shape x) (firstn k q ++ [i; last q 0])%list)
                        | None => nan
                        end))
      else Raise ValueError
  end.
(** The shape of the output, core.py 377-380, from that of data[0] *)
Definition output_shape_nd (kshape : list nat) (mask : option (nd bool)) (s0 : list nat) : res (list nat) :=
  let k := match mask with None => length kshape + 1 | Some mask => rank mask end in
  match s0 with
  | [] => Raise IndexError
  | _ => Ok (ReshapeModel.slice_neg k s0 ++ kshape ++ [last s0 0])%list
  end.
Definition opt_res (A B : Type) (f : A -> res B) (x : option A) : res (option B) :=
  match x with None => Ok None | Some x => let* y := f x in Ok (Some y) end.
(** reshape_output of a data tuple, core.py 334-388; [nank], [nanc] and [nanv] are np.nan as numbers of the arrays *)
Definition reshape_output_nd (K : Fld) (V : Type) (nanv : V) (nank : K) (nanc : Cx K) (data : ndata K V) (kshape : list nat) (mask : option (nd bool)) : res (ndata K V) :=
  match data with
  | NCorr d count sq s1 s2 =>
      let* s := output_shape_nd kshape mask (shape d) in
      let* d := reshape_one_nd nanv s mask d in
      let* sq := opt_res (reshape_one_nd nank s mask) sq in
      let* s1 := opt_res (reshape_one_nd nanc s mask) s1 in
      let* s2 := opt_res (reshape_one_nd nanc s mask) s2 in
      Ok (NCorr d count sq s1 s2)
  | NDiff d count s1 s2 =>
      let* s := output_shape_nd kshape mask (shape d) in
      let* d := reshape_one_nd nanv s mask d in
      let* s1 := opt_res (reshape_one_nd nanc s mask) s1 in
      let* s2 := opt_res (reshape_one_nd nanc s mask) s2 in
      Ok (NDiff d count s1 s2)
  | NBad _ _ => Raise ValueError
  end.

(** * Levels *)
(** d[i] for every array of a tuple, multitau.py 272 *)
Definition level_data (K : Fld) (V : Type) (data : ndata K V) (i : nat) : ndata K V :=
  match data with
  | NCorr d count sq s1 s2 => NCorr (item d i) (item count i) (option_map (fun x => item x i) sq) (option_map (fun x => item x i) s1) (option_map (fun x => item x i) s2)
  | NDiff d count s1 s2 => NDiff (item d i) (item count i) (option_map (fun x => item x i) s1) (option_map (fun x => item x i) s2)
  | NBad _ _ => NBad _ _
  end.
(** The arrays after d[i] was written *)
Definition set_item (A : Type) (x : nd A) (i : nat) (y : nd A) : nd A :=
  Nd (shape x) (fun p => if hd 0 p =? i then at_ y (tl p) else at_ x p).
Definition set_opt (A : Type) (x : option (nd A)) (i : nat) (y : option (nd A)) : option (nd A) :=
  match x, y with Some x, Some y => Some (set_item x i y) | x, _ => x end.
Definition set_level (K : Fld) (V : Type) (data : ndata K V) (i : nat) (row : ndata K V) : ndata K V :=
  match data, row with
  | NCorr d count sq s1 s2, NCorr d' count' sq' s1' s2' => NCorr (set_item d i d') (set_item count i count') (set_opt sq i sq') (set_opt s1 i s1') (set_opt s2 i s2')
  | NDiff d count s1 s2, NDiff d' count' s1' s2' => NDiff (set_item d i d') (set_item count i count') (set_opt s1 i s1') (set_opt s2 i s2')
  | data, _ => data
  end.
Definition zeros (A : Type) (s : list nat) (zero : A) : nd A := Nd s (fun _ => zero).

Section MultiArray.
  Variable K : Fld.
  Notation C := (Cx K).
  Variable V : Type.
  Variable zero : V.
  Variable complex : bool.
  (** ccorr and acorr (AxisModel.v) in call number [j]: data_fast is call 0, level i is call i+1 *)
  Variable cc : nat -> nd C -> nd C -> option (list Z) -> option (list Z) -> Z -> option nat -> option Z -> option string ->
    option (nd K) -> option (nd K) -> option (ndata K V) -> res (ndata K V).
  Variable ac : nat -> nd C -> option (list Z) -> option (nd K) -> Z -> option nat -> option Z -> option string ->
    option (ndata K V) -> res (ndata K V).
  (** The outcome of r < 0.5 in call number [k] of the binning function at level [j] *)
  Variable rs : nat -> nat -> bool.
  Variables (nanv : V) (nank : K) (nanc : C).

  (** The shape of the first array of a tuple: data_fast[0].shape *)
  Definition first_shape (data : ndata K V) : list nat := match data with NCorr d _ _ _ _ => shape d | NDiff d _ _ _ => shape d | NBad _ _ => [] end.
  (** The arrays of zeros, multitau.py 223-250 *)
  Definition slow_data (cross correlate : bool) (norm axis : Z) (nlevel n_slow : nat) (k_shape : list nat) : res (ndata K V) :=
    let m := if complex then n_slow * 2 + 1 else n_slow in
    let slow_shape := (if (axis =? -1)%Z then nlevel :: k_shape ++ [m] else nlevel :: removelast k_shape ++ m :: skipn (length k_shape - 1) k_shape)%list in
    let* out_slow := _transpose_data (zeros slow_shape zero) axis in
    let count_slow := zeros [nlevel; n_slow] 0 in
    let* sq := if (has_flag norm NORM_STRUCTURED && correlate)%bool then let* x := _transpose_data (zeros slow_shape (f0 K)) axis in Ok (Some x) else Ok None in
    let* m1 := if has_flag norm NORM_SUBTRACTED then let* x := _transpose_data (zeros slow_shape (c0 K)) axis in Ok (Some x) else Ok None in
    let* m2 := if (has_flag norm NORM_SUBTRACTED && cross)%bool then let* x := _transpose_data (zeros slow_shape (c0 K)) axis in Ok (Some x) else Ok None in
    Ok (if correlate then NCorr out_slow count_slow sq m1 m2 else NDiff out_slow count_slow m1 m2).

  (** The loop over the levels, multitau.py 261-288, for two signals *)
  Fixpoint levels_nd (todo i : nat) (axis : Z) (binning norm : Z) (method : string) (n_slow : nat)
      (f1 f2 : nd C) (f1s f2s : option (nd K)) (slow : ndata K V) : res (ndata K V) :=
    match todo with
    | O => Ok slow
    | S todo =>
        let* f1 := bin_nd (cgrp K) binning (rs i 0) f1 axis axis in
        let* f2 := bin_nd (cgrp K) binning (rs i 1) f2 axis axis in
        let* f1s := bin_opt (fgrp K) binning (rs i 2) f1s axis axis in
        let* f2s := bin_opt (fgrp K) binning (rs i 3) f2s axis axis in
        let* row := cc (S i) f1 f2 None None axis (Some n_slow) (Some norm) (Some method) f1s f2s (Some (level_data slow i)) in
        levels_nd todo (S i) axis binning norm method n_slow f1 f2 f1s f2s (set_level slow i row)
    end.
  (** and for one signal *)
  Fixpoint levels_auto_nd (todo i : nat) (axis : Z) (binning norm : Z) (method : string) (n_slow : nat)
      (f : nd C) (fs : option (nd K)) (slow : ndata K V) : res (ndata K V) :=
    match todo with
    | O => Ok slow
    | S todo =>
        let* f := bin_nd (cgrp K) binning (rs i 0) f axis axis in
        let* fs := bin_opt (fgrp K) binning (rs i 1) fs axis axis in
        let* row := ac (S i) f None fs axis (Some n_slow) (Some norm) (Some method) (Some (level_data slow i)) in
        levels_auto_nd todo (S i) axis binning norm method n_slow f fs (set_level slow i row)
    end.

  (** The axis of the calculation, multitau.py 186-190 *)
  Definition multi_axis (contig : bool) (r : nat) (axis : Z) (align no_times : bool) : Z :=
    let new_axis := if 1 <? r then (-2)%Z else (-1)%Z in
    if (no_times && _is_aligned contig r axis align)%bool then (-1)%Z else new_axis.
  (** From the reshaped arrays to the data before reshape_output, multitau.py 186-291, for two signals *)
  Definition reshaped_cross_nd (contig : bool) (f1 f2 : nd C) (ts : option (list Z * list Z)) (axis : Z) (period level_size : nat)
      (binning : Z) (nlevel : option Z) (norm : Z) (method : string) (align : bool) : res (ndata K V * ndata K V) :=
    let correlate := (String.eqb method "corr" || String.eqb method "fft")%bool in
    let new_axis := multi_axis contig (rank f1) axis align (negb (given ts)) in
    let* f1 := _move_axis_and_align f1 axis new_axis in
    let* f2 := _move_axis_and_align f2 axis new_axis in
    let* len := shape_at (shape f1) new_axis in
    let* (n_fast, n_slow, nlevel) := _determine_lengths len level_size period nlevel in
    let keep := (has_flag norm NORM_STRUCTURED && correlate)%bool in
    let f1s := if keep then Some (map_nd (@cnorm2 K) f1) else None in
    let f2s := if keep then Some (map_nd (@cnorm2 K) f2) else None in
    let* data_fast := cc 0 f1 f2 (option_map fst ts) (option_map snd ts) new_axis (Some n_fast) (Some norm) (Some method) f1s f2s None in
    let* slow := slow_data true correlate norm new_axis nlevel n_slow (removelast (first_shape data_fast)) in
    let* data_slow := levels_nd nlevel 0 new_axis binning norm method n_slow f1 f2 f1s f2s slow in
    Ok (data_fast, data_slow).
  (** and for one signal *)
  Definition reshaped_auto_nd (contig : bool) (f : nd C) (t : option (list Z)) (axis : Z) (period level_size : nat)
      (binning : Z) (nlevel : option Z) (norm : Z) (method : string) (align : bool) : res (ndata K V * ndata K V) :=
    let correlate := (String.eqb method "corr" || String.eqb method "fft")%bool in
    let new_axis := multi_axis contig (rank f) axis align (negb (given t)) in
    let* f := _move_axis_and_align f axis new_axis in
    let* len := shape_at (shape f) new_axis in
    let* (n_fast, n_slow, nlevel) := _determine_lengths len level_size period nlevel in
    let fs := if (has_flag norm NORM_STRUCTURED && correlate)%bool then Some (map_nd (@cnorm2 K) f) else None in
    let* data_fast := ac 0 f t fs new_axis (Some n_fast) (Some norm) (Some method) None in
    let* slow := slow_data false correlate norm new_axis nlevel n_slow (removelast (first_shape data_fast)) in
    let* data_slow := levels_auto_nd nlevel 0 new_axis binning norm method n_slow f fs slow in
    Ok (data_fast, data_slow).

  (** ccorr_multi, multitau.py 303-356, and _compute_multi, 159-302, with f2 given *)
  Definition multi_cross_nd (contig : bool) (f1 f2 : nd C) (t1 t2 : option (list Z)) (axis : Z) (period level_size : nat) (binning : option Z)
      (nlevel norm : option Z) (method : option string) (align : bool) (thread_divisor : option Z) (mask : option (nd bool)) : res (ndata K V * ndata K V) :=
    let* (method, binning) := _default_method_and_binning method binning in
    let* norm := _default_norm norm method true in
    if ((rank f1 =? 0) || if list_eq_dec Nat.eq_dec (shape f1) (shape f2) then false else true)%bool then Raise ValueError else
    let* (ts, level_size) := inspect_cross t1 t2 (Some level_size) false (shape_at (shape f1) axis) None in
    let* (f1, kshape) := reshape_input_nd f1 axis thread_divisor mask in
    let* (f2, kshape) := reshape_input_nd f2 axis thread_divisor mask in
    let* (fast, slow) := reshaped_cross_nd contig f1 f2 ts axis period level_size binning nlevel norm method align in
    let* fast := reshape_output_nd nanv nank nanc fast kshape mask in
    let* slow := reshape_output_nd nanv nank nanc slow kshape mask in
    Ok (fast, slow).
  (** acorr_multi, multitau.py 358-401, and _compute_multi with f2 = None *)
  Definition multi_auto_nd (contig : bool) (f : nd C) (t : option (list Z)) (axis : Z) (period level_size : nat) (binning : option Z)
      (nlevel norm : option Z) (method : option string) (align : bool) (thread_divisor : option Z) (mask : option (nd bool)) : res (ndata K V * ndata K V) :=
    let* (method, binning) := _default_method_and_binning method binning in
    let* norm := _default_norm norm method false in
    if rank f =? 0 then Raise ValueError else
    let* (t, level_size) := inspect_auto t (Some level_size) (shape_at (shape f) axis) None in
    let* (f, kshape) := reshape_input_nd f axis thread_divisor mask in
    let* (fast, slow) := reshaped_auto_nd contig f t axis period level_size binning nlevel norm method align in
    let* fast := reshape_output_nd nanv nank nanc fast kshape mask in
    let* slow := reshape_output_nd nanv nank nanc slow kshape mask in
    Ok (fast, slow).
End MultiArray.

Section MultiArrayApi.
  Variable K : Fld.
  Variable W : nat -> Cx K.
  (** data.contiguous of the arrays in the call number [j] of ccorr or acorr, before and after the axis is moved *)
  Variables contigs contigs' : nat -> bool.
  Definition ccorr_multi_nd := multi_cross_nd (f0 K) false
    (fun j f1 f2 t1 t2 axis n norm method f1s f2s aout => ccorr_nd W (contigs' j) (contigs j) f1 f2 t1 t2 axis n norm false method f1s f2s aout).
  Definition ccorr_multi_complex_nd := multi_cross_nd (c0 K) true
    (fun j f1 f2 t1 t2 axis n norm method f1s f2s aout => ccorr_complex_nd W (contigs' j) (contigs j) f1 f2 t1 t2 axis n norm false method f1s f2s aout).
  Definition acorr_multi_nd := multi_auto_nd (f0 K) false
    (fun j f t fs axis n norm method aout => acorr_nd W (contigs' j) (contigs j) f t fs axis n norm false method aout).
End MultiArrayApi.
