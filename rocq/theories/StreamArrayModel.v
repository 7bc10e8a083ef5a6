(** Model of the streaming functions for frames with any number of axes: _compute_multi_iter, multitau.py 407-1087,
    iccorr_multi and iacorr_multi, 1089-1254, iccorr and iacorr, core.py 1299-1483, with masks, thread_divisor and
    reshaping.

    OPTIMIZE_LAYOUT is False (multitau.py 405): the buffers are arrays of shape (n_decades, chunk_size) + shape, here
    the list of the levels, each the list of its frames; a frame of a buffer is the function of its index, its shape
    is that of all frames after thread_frame_shape.  The slices that are passed to ccorr and acorr are arrays with the
    time along the first axis.  Simplifications: as in StreamModel.v, AxisModel.v and MultiArrayModel.v; a mask has as
    many axes as a frame; the memory layout is the same in all calls at one level; iacorr with complex = True is
    left out (StreamModel.v has it for one pixel); arrays that are added have the same shape. *)
From Verif Require Import Base Kernels CoreModel VecModel FftModel NormModel CorrModel NormArrayModel AxisModel MultiModel LevelArrayModel MultiArrayModel StreamModel.
From Verif Require ReshapeModel.
From Coq Require Import String.
Open Scope string_scope.
Open Scope nat_scope.
Local Notation length := List.length.
Set Implicit Arguments.

(** A frame without its shape *)
Definition frame (A : Type) : Type := list nat -> A.
(** data[j, start:stop, ...] for the list of the frames *)
Definition stack (A : Type) (d : A) (s : list nat) (l : list (frame A)) : nd A :=
  Nd (length l :: s) (fun q => nth (hd 0 q) l (fun _ => d) (tl q)).

Section AddFrames.
  Variable G : QGrp.
  (** The loop of _add_data1 and _add_data2, multitau.py 418-443 and 460-495 *)
  Fixpoint add_levels_nd (binning : Z) (r : bool) (chunk_size i todo j index_top : nat) (x : frame G) (out : list (list (frame G))) : list (list (frame G)) :=
    match todo with
    | O => out
    | S todo =>
        if (i + 1) mod 2 ^ j =? 0 then
          let index_low := (i / 2 ^ j) mod chunk_size in
          let above := nth (j - 1) out [] in
          let prev := nth (if index_top =? 0 then length above - 1 else index_top - 1) above (fun _ => m0 G) in
          let x : frame G := if (binning =? BINNING_MEAN)%Z then fun p => _mean G (x p) (prev p)
                   else if (binning =? BINNING_CHOOSE)%Z then (if r then x else prev)
                   else x in
          add_levels_nd binning r chunk_size i todo (S j) index_low x (put j index_low x out)
        else out
    end.
  (** _add_data1, multitau.py 407-443, and each half of _add_data2, 446-495 *)
  Definition add_data_nd (binning : Z) (r : bool) (i : nat) (x : frame G) (out : list (list (frame G))) : list (list (frame G)) :=
    let chunk_size := length (nth 0 out []) in
    let index_top := i mod chunk_size in
    add_levels_nd binning r chunk_size i (length out - 1) 1 index_top x (put 0 index_top x out).
End AddFrames.

(** x[mask] in _get_frames, multitau.py 497-511 *)
Definition masked_frame (A : Type) (mask : option (nd bool)) (x : nd A) : res (nd A) :=
  match mask with
  | None => Ok x
  | Some mask =>
      if list_eq_dec Nat.eq_dec (shape x) (shape mask)
      then Ok (Nd [length (positions mask)] (fun q => at_ x (nth (hd 0 q) (positions mask) [])))
      else Raise IndexError
  end.
(** reshape_frame, core.py 324-332 *)
Definition reshape_frame_nd (A : Type) (nan : A) (s kshape : list nat) (mask : option (nd bool)) (x : frame A) : res (nd A) :=
  let* x := reshape_to (Nd s x) kshape in
  match mask with
  | None => Ok x
  | Some mask =>
      if broadcasts (shape x) [length (positions mask)] then
        Ok (Nd (shape mask) (fun q => match place_in_mask q (positions mask) with Some i => at_ x (broadcast_index (shape x) [i]) | None => nan end))
      else Raise ValueError
  end.
(** x[...,0:n] *)
Definition crop_last (A : Type) (n : nat) (x : nd A) : nd A := Nd (removelast (shape x) ++ [Nat.min n (last (shape x) 0)])%list (at_ x).
(** a += b *)
Definition add_nd (M : CMon) (a b : nd M) : res (nd M) :=
  if list_eq_dec Nat.eq_dec (shape a) (shape b) then Ok (Nd (shape a) (fun p => madd M (at_ a p) (at_ b p))) else Raise ValueError.
Definition add_nd_opt (M : CMon) (f : M -> M) (n : nat) (a b : option (nd M)) : res (option (nd M)) :=
  match a, b with
  | None, _ => Ok None
  | Some _, None => Raise TypeError
  | Some a, Some b => let* r := add_nd M a (map_nd f (crop_last n b)) in Ok (Some r)
  end.

Section StreamArray.
  Variable K : Fld.
  Notation C := (Cx K).
  Variable V : CMon.
  Variables complex cross : bool.
  (** ccorr and acorr (AxisModel.v) at level [j] *)
  Variable cc : nat -> nd C -> nd C -> option (list Z) -> option (list Z) -> Z -> option nat -> option Z -> option string ->
    option (nd K) -> option (nd K) -> option (ndata K V) -> res (ndata K V).
  Variable ac : nat -> nd C -> option (list Z) -> option (nd K) -> Z -> option nat -> option Z -> option string ->
    option (ndata K V) -> res (ndata K V).
  (** outcomes of r > 0.5 for every frame, in _remove_background and, for the tail, of r < 0.5 *)
  Variables rs rs_bg rs_tail : nat -> bool.
  (** contents of arrays made by np.empty *)
  Variables e1 e2 : nat -> nat -> frame C.
  Variables es1 es2 : nat -> nat -> frame K.
  Variable ebg : frame C * frame C.
  Variable evar : frame K * frame K.
  Variables (nanv : V) (nank : K) (nanc : C).

  Record nstate := {
    n_fdata1 : list (list (frame C)); n_fdata2 : list (list (frame C)); n_sq1 : list (list (frame K)); n_sq2 : list (list (frame K));
    n_fast : ndata K V; n_slow : ndata K V;
    n_bg : option (frame C * frame C);
    n_sums : frame C * frame C; n_sqsums : frame K * frame K; n_outbg : frame C * frame C; n_outvar : frame K * frame K }.

  (** _init_data_fast, multitau.py 558-595, with [lead] = [], and _init_data_slow, 597-634, with [lead] = [n_level] *)
  Definition init_data_nd (correlate : bool) (norm : Z) (lead s : list nat) (n : nat) : ndata K V :=
    let len := if (complex && cross)%bool then 2 * n - 1 else n in
    let m1 := if has_flag norm NORM_SUBTRACTED then Some (zeros (lead ++ s ++ [len])%list (c0 K)) else None in
    let m2 := if cross then m1 else None in
    if correlate
    then NCorr (zeros (lead ++ s ++ [len])%list (m0 V)) (zeros (lead ++ [len])%list 0)
           (if has_flag norm NORM_STRUCTURED then Some (zeros (lead ++ s ++ [len])%list (f0 K)) else None) m1 m2
    else NDiff (zeros (lead ++ s ++ [len])%list (m0 V)) (zeros (lead ++ [len])%list 0) m1 m2.

  (** Adding the pairs across chunks of the auto-correlation, multitau.py 902-912 and 979-989 *)
  Definition merge_auto_nd (n : nat) (out o : ndata K V) : res (ndata K V) :=
    match out, o with
    | NCorr d c sq m1 m2, NCorr d' c' sq' s1 s2 =>
        let* d := add_nd V d (crop_last n d') in
        let* c := add_nd natmon c (crop_last n c') in
        let* sq := add_nd_opt (fmon K) (fun x => x) n sq sq' in
        let* m1 := add_nd_opt (cmon K) (ahalf (cgrp K)) n m1 s1 in
        let* m1 := add_nd_opt (cmon K) (ahalf (cgrp K)) n m1 s2 in
        Ok (NCorr d c sq m1 m2)
    | NDiff d c m1 m2, NDiff d' c' s1 s2 =>
        let* d := add_nd V d (crop_last n d') in
        let* c := add_nd natmon c (crop_last n c') in
        Raise UnboundLocalError
    | _, _ => Raise TypeError
    end.

  Section Run.
    Variable S0 : setup.
    Variable norm : Z.
    Variable full : bool.
    (** the shape of the frames after thread_frame_shape *)
    Variable s : list nat.
    Let half := s_half S0.
    Let method := s_method S0.
    Let correlate := negb (String.eqb method "diff").
    Let keep := (has_flag norm NORM_STRUCTURED && correlate)%bool.
    Let sig (l : list (frame C)) : nd C := stack (c0 K) s l.
    Let sq_arg (l : list (frame K)) : option (nd K) := if keep then Some (stack (f0 K) s l) else None.

    (** Correlating a new chunk with itself and with the previous one, multitau.py 853-923 and 944-999 *)
    Definition chunk_update_nd (j : nat) (new1 new2 old1 old2 : list (frame C)) (qn1 qn2 qo1 qo2 : list (frame K))
        (tw1 tw2 : option (list Z)) (tn1 tn2 to1 to2 : list Z) (n_within n_across crop : nat) (has_old : bool)
        (out : ndata K V) : res (ndata K V) :=
      if cross then
        let* out := cc j (sig new1) (sig new2) tw1 tw2 0 (Some n_within) (Some norm) (Some method) (sq_arg qn1) (sq_arg qn2) (Some out) in
        if (has_old && full)%bool then
          let* out := cc j (sig new1) (sig old2) (Some tn1) (Some to2) 0 (Some n_across) (Some norm) (Some method) (sq_arg qn1) (sq_arg qo2) (Some out) in
          cc j (sig old1) (sig new2) (Some to1) (Some tn2) 0 (Some n_across) (Some norm) (Some method) (sq_arg qo1) (sq_arg qn2) (Some out)
        else Ok out
      else
        let* out := ac j (sig new1) tw1 (sq_arg qn1) 0 (Some n_within) (Some norm) (Some method) (Some out) in
        if (has_old && full)%bool then
          let* o := cc j (sig new1) (sig old1) (Some tn1) (Some to1) 0 (Some n_across) (Some norm) (Some method) (sq_arg qn1) (sq_arg qo1) None in
          merge_auto_nd crop out o
        else Ok out.

    (** Level 0 when a chunk is complete, multitau.py 823-923 *)
    Definition fast_update_nd (ichunk : nat) (st : nstate) : res (ndata K V) :=
      let t1 := s_t1 S0 in
      let t2 := s_t2 S0 in
      let prev := ichunk - 1 in
      chunk_update_nd 0
        (level_chunk S0 (n_fdata1 st) 0 ichunk) (level_chunk S0 (n_fdata2 st) 0 ichunk)
        (level_prev S0 (n_fdata1 st) 0 ichunk) (level_prev S0 (n_fdata2 st) 0 ichunk)
        (level_chunk S0 (n_sq1 st) 0 ichunk) (level_chunk S0 (n_sq2 st) 0 ichunk)
        (level_prev S0 (n_sq1 st) 0 ichunk) (level_prev S0 (n_sq2 st) 0 ichunk)
        (Some (time_chunk S0 t1 ichunk)) (Some (time_chunk S0 t2 ichunk))
        (time_chunk S0 t1 ichunk) (time_chunk S0 t2 ichunk)
        (time_chunk S0 t1 prev) (time_chunk S0 t2 prev)
        (s_fast S0) (s_fast S0) (s_fast S0) (0 <? ichunk) (n_fast st).

    (** The loop over the other levels, multitau.py 925-1002 *)
    Fixpoint slow_update_nd (todo j i : nat) (st : nstate) (slow : ndata K V) : res (ndata K V) :=
      match todo with
      | O => Ok slow
      | S todo =>
          if i mod (half * 2 ^ j) =? half * 2 ^ j - 1 then
            let ichunk := i / (half * 2 ^ j) in
            let t := arange (s_nframes S0) in
            let prev := ichunk - 1 in
            if hd 0 (first_shape slow) <=? j - 1 then Raise IndexError else
            let* row := chunk_update_nd j
                (level_chunk S0 (n_fdata1 st) j ichunk) (level_chunk S0 (n_fdata2 st) j ichunk)
                (level_prev S0 (n_fdata1 st) j ichunk) (level_prev S0 (n_fdata2 st) j ichunk)
                (level_chunk S0 (n_sq1 st) j ichunk) (level_chunk S0 (n_sq2 st) j ichunk)
                (level_prev S0 (n_sq1 st) j ichunk) (level_prev S0 (n_sq2 st) j ichunk)
                None None
                (time_chunk S0 t ichunk) (time_chunk S0 t ichunk) (time_chunk S0 t prev) (time_chunk S0 t prev)
                (s_level S0) (s_fast S0) (s_level S0) (0 <? ichunk) (level_data slow (j - 1)) in
            slow_update_nd todo (S j) i st (set_level slow (j - 1) row)
          else Ok slow
      end.

    (** _calc_stats_vec, _core_nb.py 280-283, and the mean and variance, multitau.py 837-851 *)
    Definition stat_update_nd (ichunk : nat) (st : nstate) : nstate :=
      let new1 := level_chunk S0 (n_fdata1 st) 0 ichunk in
      let new2 := level_chunk S0 (n_fdata2 st) 0 ichunk in
      let csum l (b : frame C) : frame C := fun p => fold_left cadd (map (fun x : frame C => x p) l) (b p) in
      let qsum l (b : frame K) : frame K := fun p => fold_left (fun a x => fadd K a (cnorm2 x)) (map (fun x : frame C => x p) l) (b p) in
      let s1 := csum new1 (fst (n_sums st)) in
      let s2 := if cross then csum new2 (snd (n_sums st)) else snd (n_sums st) in
      let q1 := qsum new1 (fst (n_sqsums st)) in
      let q2 := if cross then qsum new2 (snd (n_sqsums st)) else snd (n_sqsums st) in
      let d := fnat K ((ichunk + 1) * half) in
      let cdiv (z : frame C) : frame C := fun p => (fdiv K (cre (z p)) d, fdiv K (cim (z p)) d) in
      let m1 := cdiv s1 in
      let m2 := if cross then cdiv s2 else snd (n_outbg st) in
      let v1 : frame K := fun p => fsub K (fdiv K (q1 p) d) (cnorm2 (m1 p)) in
      let v2 : frame K := if cross then fun p => fsub K (fdiv K (q2 p) d) (cnorm2 (m2 p)) else snd (n_outvar st) in
      {| n_fdata1 := n_fdata1 st; n_fdata2 := n_fdata2 st; n_sq1 := n_sq1 st; n_sq2 := n_sq2 st; n_fast := n_fast st;
         n_slow := n_slow st; n_bg := n_bg st; n_sums := (s1, s2); n_sqsums := (q1, q2); n_outbg := (m1, m2); n_outvar := (v1, v2) |}.

    Definition with_buffers_nd (st : nstate) b1 b2 q1 q2 b : nstate :=
      {| n_fdata1 := b1; n_fdata2 := b2; n_sq1 := q1; n_sq2 := q2; n_fast := n_fast st; n_slow := n_slow st; n_bg := b;
         n_sums := n_sums st; n_sqsums := n_sqsums st; n_outbg := n_outbg st; n_outvar := n_outvar st |}.
    Definition with_data_nd (st : nstate) (fast slow : ndata K V) : nstate :=
      {| n_fdata1 := n_fdata1 st; n_fdata2 := n_fdata2 st; n_sq1 := n_sq1 st; n_sq2 := n_sq2 st; n_fast := fast; n_slow := slow;
         n_bg := n_bg st; n_sums := n_sums st; n_sqsums := n_sqsums st; n_outbg := n_outbg st; n_outvar := n_outvar st |}.

    (** Adding one (pair of) frames to all buffers, multitau.py 811-818 *)
    Definition add_frame_nd (r : bool) (i : nat) (x : frame C * frame C) (st : nstate) : nstate :=
      let b := s_binning S0 in
      with_buffers_nd st
        (add_data_nd (cgrp K) b r i (fst x) (n_fdata1 st))
        (if cross then add_data_nd (cgrp K) b r i (snd x) (n_fdata2 st) else n_fdata2 st)
        (add_data_nd (fgrp K) b r i (fun p => cnorm2 (fst x p)) (n_sq1 st))
        (if cross then add_data_nd (fgrp K) b r i (fun p => cnorm2 (snd x p)) (n_sq2 st) else n_sq2 st)
        (n_bg st).

    (** _calculate_background, multitau.py 677-682 *)
    Definition calc_background_nd (buf : list (list (frame C))) : frame C := fun p =>
      let s := fold_left cadd (map (fun x : frame C => x p) (slice 0 half (nth 0 buf []))) (c0 K) in
      (fdiv K (cre s) (fnat K half), fdiv K (cim s) (fnat K half)).
    (** _remove_background, multitau.py 691-708 *)
    Definition remove_background_nd (b : frame C * frame C) (st : nstate) : nstate :=
      for_range 0 half (fun i st =>
        let x1 : frame C := fun p => csub (nth i (nth 0 (n_fdata1 st) []) (fun _ => c0 K) p) (fst b p) in
        let x2 : frame C := fun p => csub (nth i (nth 0 (n_fdata2 st) []) (fun _ => c0 K) p) (snd b p) in
        add_frame_nd (rs_bg i) i (x1, x2) st) st.

    (** Storing a frame, multitau.py 790-821 *)
    Definition store_frame_nd (auto_background : bool) (i : nat) (x : frame C * frame C) (st : nstate) : nstate :=
      if ((i <? half) && auto_background)%bool then
        let st := with_buffers_nd st (put 0 i (fst x) (n_fdata1 st))
                    (if cross then put 0 i (snd x) (n_fdata2 st) else n_fdata2 st) (n_sq1 st) (n_sq2 st) (n_bg st) in
        if i =? half - 1 then
          let b := (calc_background_nd (n_fdata1 st), if cross then calc_background_nd (n_fdata2 st) else fun _ => c0 K) in
          remove_background_nd b (with_buffers_nd st (n_fdata1 st) (n_fdata2 st) (n_sq1 st) (n_sq2 st) (Some b))
        else st
      else
        let x : frame C * frame C := match n_bg st with
                 | None => x
                 | Some b => (fun p => csub (fst x p) (fst b p), if cross then fun p => csub (snd x p) (snd b p) else snd x)
                 end in
        add_frame_nd (rs i) i x st.

    (** A yielded value before it is reshaped *)
    Definition nyielded : Type := (ndata K V * ndata K V) * (frame C * frame C) * (frame K * frame K).
    Definition yield_of_nd (st : nstate) : nyielded := ((n_fast st, n_slow st), n_outbg st, n_outvar st).

    (** The body of the loop, multitau.py 788-1018 *)
    Definition frame_step_nd (auto_background stats : bool) (i : nat) (x : frame C * frame C) (st : nstate) : res (nstate * list nyielded) :=
      let st := store_frame_nd auto_background i x st in
      if i mod half =? half - 1 then
        let ichunk := i / half in
        let st := if stats then stat_update_nd ichunk st else st in
        let* fast := fast_update_nd ichunk st in
        let* slow := slow_update_nd (s_decades S0 - 1) 1 i st (n_slow st) in
        let st := with_data_nd st fast slow in
        Ok (st, [yield_of_nd st])
      else Ok (st, []).

    (** Initialization with the first frame, multitau.py 753-786 *)
    Definition init_state_nd : nstate :=
      {| n_fdata1 := init_buffer e1 (s_decades S0) half; n_fdata2 := init_buffer e2 (s_decades S0) half;
         n_sq1 := init_buffer es1 (s_decades S0) half; n_sq2 := init_buffer es2 (s_decades S0) half;
         n_fast := init_data_nd correlate norm [] s (s_fast S0);
         n_slow := init_data_nd correlate norm [s_nlevel S0] s (s_level S0);
         n_bg := None; n_sums := (fun _ => c0 K, fun _ => c0 K); n_sqsums := (fun _ => f0 K, fun _ => f0 K); n_outbg := ebg; n_outvar := evar |}.

    (** The rest of the data, multitau.py 1033-1055 *)
    Fixpoint tail_update_nd (todo j : nat) (f1 f2 : nd C) (q1 q2 : option (nd K)) (slow : ndata K V) : res (ndata K V) :=
      match todo with
      | O => Ok slow
      | S todo =>
          let bin := s_binning S0 in
          let* f1 := bin_nd (cgrp K) bin (rs_tail j) f1 0 0 in
          let* f2 := if cross then bin_nd (cgrp K) bin (rs_tail j) f2 0 0 else Ok f2 in
          let* q1 := bin_opt (fgrp K) bin (rs_tail j) q1 0 0 in
          let* q2 := if cross then bin_opt (fgrp K) bin (rs_tail j) q2 0 0 else Ok q2 in
          if hd 0 (first_shape slow) <=? j - 1 then Raise IndexError else
          let* row :=
            if cross then cc j f1 f2 None None 0 (Some (s_level S0)) (Some norm) (Some method) q1 q2 (Some (level_data slow (j - 1)))
            else ac j f1 None q1 0 (Some (s_level S0)) (Some norm) (Some method) (Some (level_data slow (j - 1))) in
          tail_update_nd todo (S j) f1 f2 q1 q2 (set_level slow (j - 1) row)
      end.
    Definition finish_nd (st : nstate) : res nstate :=
      let first := Nat.max (s_decades S0) 1 in
      let* slow := tail_update_nd (s_nlevel S0 + 1 - first) first
                     (sig (last (n_fdata1 st) [])) (sig (last (n_fdata2 st) [])) (sq_arg (last (n_sq1 st) [])) (sq_arg (last (n_sq2 st) [])) (n_slow st) in
      Ok (with_data_nd st (n_fast st) slow).

    (** x.reshape(shape) of the (masked) frames, multitau.py 768 and 804-805 *)
    Definition one_frame (mask : option (nd bool)) (x : nd C) : res (frame C) :=
      let* x := masked_frame mask x in
      let* x := reshape_to x s in
      Ok (at_ x).
    Definition get_frames_nd (mask : option (nd bool)) (x : nd C * nd C) : res (frame C * frame C) :=
      let* x1 := one_frame mask (fst x) in
      let* x2 := if cross then one_frame mask (snd x) else Ok (fun _ => c0 K) in
      Ok (x1, x2).

    (** The loop over the frames, multitau.py 770-1022 *)
    Fixpoint stream_loop_nd (mask : option (nd bool)) (auto_background stats : bool) (frames : list (nd C * nd C)) (i : nat) (st : nstate) : res (nstate * list nyielded) :=
      match frames with
      | [] => if i - 1 <? s_nframes S0 - 1 then Raise ValueError else Ok (st, [])
      | x :: frames =>
          if i =? s_nframes S0 then Ok (st, [])
          else
            let* x := get_frames_nd mask x in
            let* (st, y) := frame_step_nd auto_background stats i x st in
            let* (st, ys) := stream_loop_nd mask auto_background stats frames (S i) st in
            Ok (st, (y ++ ys)%list)
      end.
  End Run.

  (** A yielded value: data, mean and variance with the original shape of the frames, multitau.py 1011-1018 and
      1078-1086.  (The mean and the variance can always be reshaped; they are given only if stats = True.) *)
  Definition oyielded : Type := (ndata K V * ndata K V) * (nd C * nd C) * (nd K * nd K).
  Definition output_nd (s kshape : list nat) (mask : option (nd bool)) (y : nyielded) : res oyielded :=
    let '((fast, slow), b, v) := y in
    let* fast := reshape_output_nd nanv nank nanc fast kshape mask in
    let* slow := reshape_output_nd nanv nank nanc slow kshape mask in
    let* b1 := reshape_frame_nd nanc s kshape mask (fst b) in
    let* b2 := reshape_frame_nd nanc s kshape mask (snd b) in
    let* v1 := reshape_frame_nd nank s kshape mask (fst v) in
    let* v2 := reshape_frame_nd nank s kshape mask (snd v) in
    Ok ((fast, slow), (b1, b2), (v1, v2)).
  Fixpoint outputs_nd (s kshape : list nat) (mask : option (nd bool)) (ys : list nyielded) : res (list oyielded) :=
    match ys with
    | [] => Ok []
    | y :: ys => let* z := output_nd s kshape mask y in let* zs := outputs_nd s kshape mask ys in Ok (z :: zs)
    end.

  (** _compute_multi_iter, multitau.py 716-1087 *)
  Definition compute_multi_iter_nd (frames : list (nd C * nd C)) (t1 t2 : option (list Z)) (period : nat) (level_size chunk_size : option nat)
      (binning : option Z) (method : option string) (count len : option nat) (auto_background : bool)
      (nlevel : option Z) (norm : option Z) (stats : bool) (mode : string) (thread_divisor : option Z) (mask : option (nd bool)) : res (list oyielded) :=
    let* S0 := stream_setup t1 t2 period level_size chunk_size binning method count len nlevel mode in
    match frames with
    | [] => if 0 <? s_nframes S0 - 1 then Raise ValueError else Raise UnboundLocalError
    | x :: _ =>
        let* x1 := masked_frame mask (fst x) in
        let kshape := shape x1 in
        let* zshape := ReshapeModel.thread_frame_shape kshape thread_divisor (match mask with None => true | Some _ => false end) in
        let* norm := _default_norm norm (s_method S0) cross in
        if existsb (fun d => (d <? 0)%Z) zshape then Raise ValueError else
        let s := map Z.to_nat zshape in
        let* (st, ys) := stream_loop_nd S0 norm (String.eqb mode "full") s mask auto_background stats frames 0 (init_state_nd S0 norm s) in
        let* st := finish_nd S0 norm s st in
        outputs_nd s kshape mask (ys ++ [yield_of_nd st])%list
    end.
  (** The last value of the generator *)
  Definition last_yield_nd (ys : list oyielded) : res oyielded :=
    match rev ys with [] => Raise UnboundLocalError | y :: _ => Ok y end.
End StreamArray.

Section StreamArrayApi.
  Variable K : Fld.
  Notation C := (Cx K).
  Variable W : nat -> Cx K.
  (** Everything that is not determined by the arguments: memory layouts, random choices, uninitialized memory *)
  Record nworld := {
    nw_contig : nat -> bool; nw_contig' : nat -> bool; nw_rs : nat -> bool; nw_rs_bg : nat -> bool; nw_rs_tail : nat -> bool;
    nw_e1 : nat -> nat -> frame C; nw_e2 : nat -> nat -> frame C; nw_es1 : nat -> nat -> frame K; nw_es2 : nat -> nat -> frame K;
    nw_bg : frame C * frame C; nw_var : frame K * frame K }.
  Variable w : nworld.
  Variables (nank : K) (nanc : C).
  Section Api.
    Variable V : CMon.
    Variable complex : bool.
    Variable nanv : V.
    Variable cc : nat -> nd C -> nd C -> option (list Z) -> option (list Z) -> Z -> option nat -> option Z -> option string ->
      option (nd K) -> option (nd K) -> option (ndata K V) -> res (ndata K V).
    Variable ac : nat -> nd C -> option (list Z) -> option (nd K) -> Z -> option nat -> option Z -> option string ->
      option (ndata K V) -> res (ndata K V).
    Definition multi_iter_nd (cross : bool) := compute_multi_iter_nd V complex cross cc ac
      (nw_rs w) (nw_rs_bg w) (nw_rs_tail w) (nw_e1 w) (nw_e2 w) (nw_es1 w) (nw_es2 w) (nw_bg w) (nw_var w) nanv nank nanc.
    (** iccorr_multi, multitau.py 1089-1173 *)
    Definition iccorr_multi_gen_nd (frames : list (nd C * nd C)) (t1 t2 : option (list Z)) (level_size : option nat) (norm : option Z)
        (method : option string) (count len : option nat) (period : nat) (binning : option Z) (nlevel : option Z)
        (chunk_size : option nat) (auto_background : bool) (mode : string) (stats : bool) (thread_divisor : option Z) (mask : option (nd bool)) :=
      if xorb (given t1) (given t2) then Raise ValueError else
      let* ys := multi_iter_nd true frames t1 t2 period level_size chunk_size binning method count len auto_background nlevel norm stats mode thread_divisor mask in
      last_yield_nd ys.
    (** iacorr_multi, multitau.py 1176-1254 *)
    Definition iacorr_multi_gen_nd (frames : list (nd C)) (t : option (list Z)) (level_size : option nat) (norm : option Z)
        (method : option string) (count len : option nat) (period : nat) (binning : option Z) (nlevel : option Z)
        (chunk_size : option nat) (auto_background : bool) (mode : string) (stats : bool) (thread_divisor : option Z) (mask : option (nd bool)) :=
      let* ys := multi_iter_nd false (map (fun x => (x, x)) frames) t None period level_size chunk_size binning method count len auto_background nlevel norm stats mode thread_divisor mask in
      last_yield_nd ys.
    (** iccorr, core.py 1299-1393 *)
    Definition iccorr_gen_nd (frames : list (nd C * nd C)) (t1 t2 : option (list Z)) (n : option nat) (norm : option Z)
        (method : option string) (count len chunk_size : option nat) (auto_background : bool) (mode : string) (stats : bool) (thread_divisor : option Z) (mask : option (nd bool))
        : res (ndata K V * (nd C * nd C) * (nd K * nd K)) :=
      if xorb (given t1) (given t2) then Raise ValueError else
      let* norm := _default_norm norm (match method with Some m => m | None => "" end) true in
      let* ys := multi_iter_nd true frames t1 t2 1 n chunk_size None method count len auto_background (Some 0%Z) (Some norm) stats mode thread_divisor mask in
      let* ((fast, _), b, v) := last_yield_nd ys in
      Ok (fast, b, v).
    (** iacorr, core.py 1395-1483 *)
    Definition iacorr_gen_nd (frames : list (nd C)) (t : option (list Z)) (n : option nat) (norm : option Z)
        (method : option string) (count len chunk_size : option nat) (auto_background : bool) (mode : string) (stats : bool) (thread_divisor : option Z) (mask : option (nd bool))
        : res (ndata K V * nd C * nd K) :=
      let* norm := _default_norm norm (match method with Some m => m | None => "" end) false in
      let* ys := multi_iter_nd false (map (fun x => (x, x)) frames) t None 1 n chunk_size None method count len auto_background (Some 0%Z) (Some norm) stats mode thread_divisor mask in
      let* ((fast, _), b, v) := last_yield_nd ys in
      Ok (fast, fst b, fst v).
  End Api.
  Definition cc_real := fun j f1 f2 t1 t2 axis n norm method f1s f2s aout => ccorr_nd W (nw_contig' w j) (nw_contig w j) f1 f2 t1 t2 axis n norm false method f1s f2s aout.
  Definition cc_complex := fun j f1 f2 t1 t2 axis n norm method f1s f2s aout => ccorr_complex_nd W (nw_contig' w j) (nw_contig w j) f1 f2 t1 t2 axis n norm false method f1s f2s aout.
  Definition ac_real := fun j f t fs axis n norm method aout => acorr_nd W (nw_contig' w j) (nw_contig w j) f t fs axis n norm false method aout.
  (** acorr is not called in the functions for two cameras *)
  Definition ac_none (j : nat) (f : nd C) (t : option (list Z)) (fs : option (nd K)) (axis : Z) (n : option nat) (norm : option Z) (method : option string)
    (aout : option (ndata K C)) : res (ndata K C) := Raise ValueError.
  Definition iccorr_nd := iccorr_gen_nd (fmon K) false nank cc_real ac_real.
  Definition iccorr_complex_nd := iccorr_gen_nd (cmon K) true nanc cc_complex ac_none.
  Definition iacorr_nd := iacorr_gen_nd (fmon K) false nank cc_real ac_real.
  Definition iccorr_multi_nd := iccorr_multi_gen_nd (fmon K) false nank cc_real ac_real.
  Definition iccorr_multi_complex_nd := iccorr_multi_gen_nd (cmon K) true nanc cc_complex ac_none.
  Definition iacorr_multi_nd := iacorr_multi_gen_nd (fmon K) false nank cc_real ac_real.
End StreamArrayApi.
