(** Model of the streaming functions, multitau.py 407-1254, and of iccorr and iacorr,
    core.py 1299-1483, for one pixel.

    A data iterator is the finite list of its frames.  Arrays that the code modifies in
    place are threaded through as values.  Arrays allocated with np.empty have arbitrary
    contents (parameters [e1], [e2], [es1], [es2]).  The buffers of squares are
    maintained even if the norm does not need them (they are then never read).  Printing,
    the viewer, masks, reshaping and memory layout are left out; [aligned j] is the
    outcome of _is_aligned at level [j], random numbers are oracles.  The generator is
    modelled by the list of all values it yields, or by the exception that ends it: its
    four callers consume all of it and return the last value. *)
From Verif Require Import Base Kernels CoreModel FftModel NormModel CorrModel MultiModel.
From Coq Require Import String.
Open Scope string_scope.
Open Scope nat_scope.
Local Notation length := List.length.
Set Implicit Arguments.

(** l[start:start+len] for 0 <= start *)
Definition slice {A} (start len : nat) (l : list A) : list A := firstn len (skipn start l).

(** out[j][k] = x *)
Definition put {A} (j k : nat) (x : A) (out : list (list A)) : list (list A) :=
  upd out j (upd (nth j out []) k x).

Section AddData.
  Variable G : QGrp.

  (** The loop of _add_data1 and _add_data2, multitau.py 418-443 and 460-495, with [todo]
      rounds left; [r] is the outcome of r > 0.5. *)
  Fixpoint add_levels (binning : Z) (r : bool) (chunk_size i todo j index_top : nat) (x : G) (out : list (list G)) : list (list G) :=
    match todo with
    | O => out
    | S todo =>
        if (i + 1) mod 2 ^ j =? 0 then
          let index_low := (i / 2 ^ j) mod chunk_size in
          let above := nth (j - 1) out [] in
          (* index_top-1 is -1, the last element, if index_top = 0 *)
          let prev := nth (if index_top =? 0 then length above - 1 else index_top - 1) above (m0 G) in
          let x := if (binning =? BINNING_MEAN)%Z then _mean G x prev
                   else if (binning =? BINNING_CHOOSE)%Z then (if r then x else prev)
                   else x in
          add_levels binning r chunk_size i todo (S j) index_low x (put j index_low x out)
        else out
    end.
  (** _add_data1, multitau.py 407-443; _add_data2, multitau.py 446-495, does the same for
      two buffers *)
  Definition add_data (binning : Z) (r : bool) (i : nat) (x : G) (out : list (list G)) : list (list G) :=
    let chunk_size := length (nth 0 out []) in
    let index_top := i mod chunk_size in
    add_levels binning r chunk_size i (length out - 1) 1 index_top x (put 0 index_top x out).
End AddData.

(** _default_chunk_size, multitau.py 513-526 *)
Fixpoint halve_chunk (fuel chunk_size level_size : nat) : nat :=
  match fuel with
  | O => chunk_size
  | S fuel => if ((level_size <=? chunk_size / 2) && (128 <? chunk_size))%bool
              then halve_chunk fuel (chunk_size / 2) level_size else chunk_size
  end.
Definition _default_chunk_size (chunk_size : option nat) (count level_size : nat) : res nat :=
  if count <? level_size then Raise ValueError else
  let chunk_size := match chunk_size with None => halve_chunk count count level_size | Some c => c end in
  if count <? chunk_size then Raise ValueError
  else if chunk_size <? level_size then Raise ValueError
  else Ok chunk_size.

(** _inspect_t1_t2_count, multitau.py 528-546; [len] is len(data), None if the iterator
    has no length *)
Definition _inspect_t1_t2_count (t1 t2 : option (list Z)) (count len : option nat) : res (list Z * list Z * nat) :=
  let* (t1, count) := match t1 with
                      | None => match count with
                                | Some c => Ok (arange c, Some c)
                                | None => match len with Some c => Ok (arange c, Some c) | None => Raise ValueError end
                                end
                      | Some t => Ok (t, count)
                      end in
  let count := match count with None => length t1 | Some c => c end in
  let t2 := match t2 with Some t => t | None => t1 end in
  if length t1 <? count then Raise ValueError
  else if negb (length t1 =? length t2) then Raise ValueError
  else Ok (t1, t2, count).

(** The loop "while count // (chunk_size * 2**n) > 0: n += 1", multitau.py 745-747 *)
Fixpoint count_decades (fuel count chunk_size n : nat) : nat :=
  match fuel with
  | O => n
  | S fuel => if 0 <? count / (chunk_size * 2 ^ n) then count_decades fuel count chunk_size (S n) else n
  end.

(** What _compute_multi_iter determines before the first frame, multitau.py 722-766 *)
Record setup := {
  s_method : string; s_binning : Z; s_t1 : list Z; s_t2 : list Z; s_half : nat; s_level : nat; s_fast : nat;
  s_decades : nat; s_nframes : nat; s_nlevel : nat }.

Definition stream_setup (t1 t2 : option (list Z)) (period : nat) (level_size : option nat) (chunk_size : option nat)
    (binning : option Z) (method : option string) (count len : option nat) (nlevel : option Z) (mode : string) : res setup :=
  if negb (String.eqb mode "full" || String.eqb mode "chunk")%bool then Raise ValueError else
  let* (method, binning) := _default_method_and_binning method binning in
  let* (t1, t2, count) := _inspect_t1_t2_count t1 t2 count len in
  match level_size with
  | None => Raise TypeError (* int(None) *)
  | Some level_size =>
      let* half := _default_chunk_size chunk_size count level_size in
      (* the test level_size > half_chunk_size, line 739, cannot succeed here *)
      let n_fast := period * level_size in
      if half =? 0 then Raise ZeroDivisionError else
      let n_decades := count_decades (S count) count (2 * half) 0 in
      let nframes := half * 2 ^ n_decades in (* int(2**(n_decades-1) * 2*half) *)
      let n_max := count_levels (S nframes) nframes level_size 0 in
      let* (n_decades, nlevel) :=
        match nlevel with
        | None => Ok (n_decades, n_max - 1)
        | Some l => let d := Z.min (l + 1) (Z.of_nat n_max) in
                    if (d <? 1)%Z then Raise ValueError
                    else Ok (Z.to_nat d, Z.to_nat (Z.min l (Z.of_nat n_max - 1)))
        end in
      Ok {| s_method := method; s_binning := binning; s_t1 := t1; s_t2 := t2; s_half := half; s_level := level_size;
            s_fast := n_fast; s_decades := n_decades; s_nframes := nframes; s_nlevel := nlevel |}
  end.

Section Stream.
  Variable K : Fld.
  Notation C := (Cx K).
  Variable V : CMon.
  Variables complex cross : bool.
  Variable cc : bool -> list C -> list C -> option (list Z) -> option (list Z) -> option nat ->
    option Z -> option string -> option (list K) -> option (list K) -> option (cdata K V) -> res (cdata K V).
  Variable ac : bool -> list C -> option (list Z) -> option (list K) -> option nat ->
    option Z -> option string -> option (cdata K V) -> res (cdata K V).
  Variable aligned : nat -> bool.
  (** outcomes of r > 0.5 for every frame, in _remove_background and, for the tail, of r < 0.5 *)
  Variables rs rs_bg rs_tail : nat -> bool.
  (** initial contents of the buffers and of out_bg, out_var *)
  Variables e1 e2 : nat -> nat -> C.
  Variables es1 es2 : nat -> nat -> K.
  Variable ebg : C * C.
  Variable evar : K * K.

  Record sstate := {
    fdata1 : list (list C); fdata2 : list (list C); sq1 : list (list K); sq2 : list (list K);
    data_fast : cdata K V; data_slow : list (cdata K V);
    bg : option (C * C);
    sums : C * C; sqsums : K * K; out_bg : C * C; out_var : K * K }.

  (** One row of the zero arrays of _init_data_fast and _init_data_slow, multitau.py
      558-634 *)
  Definition init_row (correlate : bool) (norm : Z) (n : nat) : cdata K V :=
    let len := if (complex && cross)%bool then 2 * n - 1 else n in
    let m1 := if has_flag norm NORM_SUBTRACTED then Some (repeat (c0 K) len) else None in
    let m2 := if cross then m1 else None in
    if correlate
    then DCorr (repeat (m0 V) len) (repeat 0 len)
           (if has_flag norm NORM_STRUCTURED then Some (repeat (f0 K) len) else None) m1 m2
    else DDiff (repeat (m0 V) len) (repeat 0 len) m1 m2.

  (** _init_data_f and _init_data_sq, multitau.py 636-659 *)
  Definition init_buffer {A} (e : nat -> nat -> A) (n_decades half : nat) : list (list A) :=
    if 0 <? n_decades then map (fun j => map (e j) (seq 0 (2 * half))) (seq 0 n_decades)
    else [map (e 0) (seq 0 half)].

  (** a += b: here only for arrays of the same length (numpy would also broadcast an
      array of length one) *)
  Definition add_to (M : CMon) (a b : list M) : res (list M) :=
    if length a =? length b then Ok (map (fun p => madd M (fst p) (snd p)) (combine a b)) else Raise ValueError.
  Definition add_to_opt (M : CMon) (f : M -> M) (n : nat) (a b : option (list M)) : res (option (list M)) :=
    match a, b with
    | None, _ => Ok None
    | Some _, None => Raise TypeError
    | Some a, Some b => let* r := add_to M a (map f (firstn n b)) in Ok (Some r)
    end.

  (** Adding the pairs across chunks of the auto-correlation, multitau.py 902-912 and
      979-989.  With the difference method the name sq_fast (sq_slow) is not bound. *)
  Definition merge_auto (n : nat) (out o : cdata K V) : res (cdata K V) :=
    match out, o with
    | DCorr d c sq m1 m2, DCorr d' c' sq' s1 s2 =>
        let* d := add_to V d (firstn n d') in
        let* c := add_to natmon c (firstn n c') in
        let* sq := add_to_opt (fmon K) (fun x => x) n sq sq' in
        let* m1 := add_to_opt (cmon K) (ahalf (cgrp K)) n m1 s1 in
        let* m1 := add_to_opt (cmon K) (ahalf (cgrp K)) n m1 s2 in
        Ok (DCorr d c sq m1 m2)
    | DDiff d c m1 m2, DDiff d' c' s1 s2 =>
        let* d := add_to V d (firstn n d') in
        let* c := add_to natmon c (firstn n c') in
        Raise UnboundLocalError
    | _, _ => Raise TypeError
    end.

  Section Run.
    Variable S0 : setup.
    Variable norm : Z.
    Variable full : bool.
    Let half := s_half S0.
    Let method := s_method S0.
    Let correlate := negb (String.eqb method "diff").
    Let keep := (has_flag norm NORM_STRUCTURED && correlate)%bool.
    Let sq_arg (s : list K) : option (list K) := if keep then Some s else None.

    (** Correlating a new chunk with itself and with the previous one, multitau.py
        853-923 (level 0) and 944-999 (the others). [tw1], [tw2] are the times passed for
        pairs within the chunk, [tn1], [tn2] (new) and [to1], [to2] (old) those for pairs
        across chunks. *)
    Definition chunk_update (al : bool) (new1 new2 old1 old2 : list C) (qn1 qn2 qo1 qo2 : list K)
        (tw1 tw2 : option (list Z)) (tn1 tn2 to1 to2 : list Z) (n_within n_across crop : nat) (has_old : bool)
        (out : cdata K V) : res (cdata K V) :=
      if cross then
        let* out := cc al new1 new2 tw1 tw2 (Some n_within) (Some norm) (Some method) (sq_arg qn1) (sq_arg qn2) (Some out) in
        if (has_old && full)%bool then
          let* out := cc al new1 old2 (Some tn1) (Some to2) (Some n_across) (Some norm) (Some method) (sq_arg qn1) (sq_arg qo2) (Some out) in
          cc al old1 new2 (Some to1) (Some tn2) (Some n_across) (Some norm) (Some method) (sq_arg qo1) (sq_arg qn2) (Some out)
        else Ok out
      else
        let* out := ac al new1 tw1 (sq_arg qn1) (Some n_within) (Some norm) (Some method) (Some out) in
        if (has_old && full)%bool then
          let* o := cc al new1 old1 (Some tn1) (Some to1) (Some n_across) (Some norm) (Some method) (sq_arg qn1) (sq_arg qo1) None in
          merge_auto crop out o
        else Ok out.

    (** The chunk number [ichunk] of level [j] of a buffer: data[j][half*(ichunk%2):...] *)
    Definition level_chunk {A} (buf : list (list A)) (j ichunk : nat) : list A :=
      slice (half * (ichunk mod 2)) half (nth j buf []).
    (** (ichunk-1) % 2, also for ichunk = 0 *)
    Definition level_prev {A} (buf : list (list A)) (j ichunk : nat) : list A :=
      slice (half * ((ichunk + 1) mod 2)) half (nth j buf []).
    Definition time_chunk (t : list Z) (ichunk : nat) : list Z := slice (ichunk * half) half t.

    (** Level 0 when a chunk is complete, multitau.py 823-923 *)
    Definition fast_update (ichunk : nat) (st : sstate) : res (cdata K V) :=
      let t1 := s_t1 S0 in
      let t2 := s_t2 S0 in
      let prev := ichunk - 1 in
      chunk_update (aligned 0)
        (level_chunk (fdata1 st) 0 ichunk) (level_chunk (fdata2 st) 0 ichunk)
        (level_prev (fdata1 st) 0 ichunk) (level_prev (fdata2 st) 0 ichunk)
        (level_chunk (sq1 st) 0 ichunk) (level_chunk (sq2 st) 0 ichunk)
        (level_prev (sq1 st) 0 ichunk) (level_prev (sq2 st) 0 ichunk)
        (Some (time_chunk t1 ichunk)) (Some (time_chunk t2 ichunk))
        (time_chunk t1 ichunk) (time_chunk t2 ichunk)
        (time_chunk t1 prev) (time_chunk t2 prev)
        (s_fast S0) (s_fast S0) (s_fast S0) (0 <? ichunk) (data_fast st).

    (** The loop over the other levels, multitau.py 925-1002 *)
    Fixpoint slow_update (todo j i : nat) (st : sstate) (rows : list (cdata K V)) : res (list (cdata K V)) :=
      match todo with
      | O => Ok rows
      | S todo =>
          if i mod (half * 2 ^ j) =? half * 2 ^ j - 1 then
            let ichunk := i / (half * 2 ^ j) in
            let t := arange (s_nframes S0) in
            let prev := ichunk - 1 in
            match nth_error rows (j - 1) with
            | None => Raise IndexError
            | Some row =>
              let* row := chunk_update (aligned j)
                (level_chunk (fdata1 st) j ichunk) (level_chunk (fdata2 st) j ichunk)
                (level_prev (fdata1 st) j ichunk) (level_prev (fdata2 st) j ichunk)
                (level_chunk (sq1 st) j ichunk) (level_chunk (sq2 st) j ichunk)
                (level_prev (sq1 st) j ichunk) (level_prev (sq2 st) j ichunk)
                None None
                (time_chunk t ichunk) (time_chunk t ichunk) (time_chunk t prev) (time_chunk t prev)
                (s_level S0) (s_fast S0) (s_level S0) (0 <? ichunk) row in
              slow_update todo (S j) i st (upd rows (j - 1) row)
            end
          else Ok rows
      end.

    (** _calc_stats_vec, _core_nb.py 280-283, and the mean and variance, multitau.py
        837-851 *)
    Definition stat_update (ichunk : nat) (st : sstate) : sstate :=
      let new1 := level_chunk (fdata1 st) 0 ichunk in
      let new2 := level_chunk (fdata2 st) 0 ichunk in
      let s1 := fold_left cadd new1 (fst (sums st)) in
      let s2 := if cross then fold_left cadd new2 (snd (sums st)) else snd (sums st) in
      let q1 := fold_left (fun a x => fadd K a (cnorm2 x)) new1 (fst (sqsums st)) in
      let q2 := if cross then fold_left (fun a x => fadd K a (cnorm2 x)) new2 (snd (sqsums st)) else snd (sqsums st) in
      let d := fnat K ((ichunk + 1) * half) in
      let cdiv z := (fdiv K (cre z) d, fdiv K (cim z) d) in
      let m1 := cdiv s1 in
      let m2 := if cross then cdiv s2 else snd (out_bg st) in
      let v1 := fsub K (fdiv K q1 d) (cnorm2 m1) in
      let v2 := if cross then fsub K (fdiv K q2 d) (cnorm2 m2) else snd (out_var st) in
      {| fdata1 := fdata1 st; fdata2 := fdata2 st; sq1 := sq1 st; sq2 := sq2 st; data_fast := data_fast st;
         data_slow := data_slow st; bg := bg st; sums := (s1, s2); sqsums := (q1, q2); out_bg := (m1, m2); out_var := (v1, v2) |}.

    Definition with_buffers (st : sstate) (b1 b2 : list (list C)) (q1 q2 : list (list K)) (b : option (C * C)) : sstate :=
      {| fdata1 := b1; fdata2 := b2; sq1 := q1; sq2 := q2; data_fast := data_fast st; data_slow := data_slow st; bg := b;
         sums := sums st; sqsums := sqsums st; out_bg := out_bg st; out_var := out_var st |}.
    Definition with_data (st : sstate) (fast : cdata K V) (slow : list (cdata K V)) : sstate :=
      {| fdata1 := fdata1 st; fdata2 := fdata2 st; sq1 := sq1 st; sq2 := sq2 st; data_fast := fast; data_slow := slow;
         bg := bg st; sums := sums st; sqsums := sqsums st; out_bg := out_bg st; out_var := out_var st |}.

    (** Adding one (pair of) frames to all buffers, multitau.py 811-818 *)
    Definition add_frame (r : bool) (i : nat) (x : C * C) (st : sstate) : sstate :=
      let b := s_binning S0 in
      with_buffers st
        (add_data (cgrp K) b r i (fst x) (fdata1 st))
        (if cross then add_data (cgrp K) b r i (snd x) (fdata2 st) else fdata2 st)
        (add_data (fgrp K) b r i (cnorm2 (fst x)) (sq1 st))
        (if cross then add_data (fgrp K) b r i (cnorm2 (snd x)) (sq2 st) else sq2 st)
        (bg st).

    (** _calculate_background, multitau.py 677-682 *)
    Definition calc_background (buf : list (list C)) : C :=
      let s := fold_left cadd (slice 0 half (nth 0 buf [])) (c0 K) in
      (fdiv K (cre s) (fnat K half), fdiv K (cim s) (fnat K half)).
    (** _remove_background, multitau.py 691-708 *)
    Definition remove_background (b : C * C) (st : sstate) : sstate :=
      for_range 0 half (fun i st =>
        let x1 := csub (nth i (nth 0 (fdata1 st) []) (c0 K)) (fst b) in
        let x2 := csub (nth i (nth 0 (fdata2 st) []) (c0 K)) (snd b) in
        add_frame (rs_bg i) i (x1, x2) st) st.

    (** Storing a frame, multitau.py 790-821 *)
    Definition store_frame (auto_background : bool) (i : nat) (x : C * C) (st : sstate) : sstate :=
      if ((i <? half) && auto_background)%bool then
        let st := with_buffers st (put 0 i (fst x) (fdata1 st))
                    (if cross then put 0 i (snd x) (fdata2 st) else fdata2 st) (sq1 st) (sq2 st) (bg st) in
        if i =? half - 1 then
          let b := (calc_background (fdata1 st), if cross then calc_background (fdata2 st) else c0 K) in
          remove_background b (with_buffers st (fdata1 st) (fdata2 st) (sq1 st) (sq2 st) (Some b))
        else st
      else
        let x := match bg st with
                 | None => x
                 | Some b => (csub (fst x) (fst b), if cross then csub (snd x) (snd b) else snd x)
                 end in
        add_frame (rs i) i x st.

    (** A value yielded by the generator: the correlation data, the mean and the variance *)
    Definition yielded : Type := (cdata K V * list (cdata K V)) * (C * C) * (K * K).
    Definition yield_of (st : sstate) : yielded := ((data_fast st, data_slow st), out_bg st, out_var st).

    (** The body of the loop, multitau.py 788-1018 *)
    Definition frame_step (auto_background stats : bool) (i : nat) (x : C * C) (st : sstate)
        : res (sstate * list yielded) :=
      let st := store_frame auto_background i x st in
      if i mod half =? half - 1 then
        let ichunk := i / half in
        let st := if stats then stat_update ichunk st else st in
        let* fast := fast_update ichunk st in
        let* slow := slow_update (s_decades S0 - 1) 1 i st (data_slow st) in
        let st := with_data st fast slow in
        Ok (st, [yield_of st])
      else Ok (st, []).

    (** Initialization with the first frame, multitau.py 753-786 *)
    Definition init_state : sstate :=
      {| fdata1 := init_buffer e1 (s_decades S0) half; fdata2 := init_buffer e2 (s_decades S0) half;
         sq1 := init_buffer es1 (s_decades S0) half; sq2 := init_buffer es2 (s_decades S0) half;
         data_fast := init_row correlate norm (s_fast S0);
         data_slow := repeat (init_row correlate norm (s_level S0)) (s_nlevel S0);
         bg := None; sums := (c0 K, c0 K); sqsums := (f0 K, f0 K); out_bg := ebg; out_var := evar |}.

    (** The rest of the data, multitau.py 1033-1055 *)
    Fixpoint tail_update (todo j : nat) (f1 f2 : list C) (q1 q2 : list K) (rows : list (cdata K V)) : res (list (cdata K V)) :=
      match todo with
      | O => Ok rows
      | S todo =>
          let bin := s_binning S0 in
          let f1 := bin_data (cgrp K) bin (rs_tail j) f1 in
          let f2 := bin_data (cgrp K) bin (rs_tail j) f2 in
          let q1 := bin_data (fgrp K) bin (rs_tail j) q1 in
          let q2 := bin_data (fgrp K) bin (rs_tail j) q2 in
          match nth_error rows (j - 1) with
          | None => Raise IndexError
          | Some row =>
              let* row :=
                if cross then cc (aligned j) f1 f2 None None (Some (s_level S0)) (Some norm) (Some method) (sq_arg q1) (sq_arg q2) (Some row)
                else ac (aligned j) f1 None (sq_arg q1) (Some (s_level S0)) (Some norm) (Some method) (Some row) in
              tail_update todo (S j) f1 f2 q1 q2 (upd rows (j - 1) row)
          end
      end.
    Definition finish (st : sstate) : res sstate :=
      let first := Nat.max (s_decades S0) 1 in
      let* slow := tail_update (s_nlevel S0 + 1 - first) first
                     (last (fdata1 st) []) (last (fdata2 st) []) (last (sq1 st) []) (last (sq2 st) []) (data_slow st) in
      Ok (with_data st (data_fast st) slow).

    (** The loop over the frames, multitau.py 770-1022: the state and the values yielded.
        An exhausted iterator raises ValueError if the last index was less than
        nframes - 1. *)
    Fixpoint stream_loop (auto_background stats : bool) (frames : list (C * C)) (i : nat) (st : sstate) : res (sstate * list yielded) :=
      match frames with
      | [] => if i - 1 <? s_nframes S0 - 1 then Raise ValueError else Ok (st, [])
      | x :: frames =>
          if i =? s_nframes S0 then Ok (st, [])
          else
            let* (st, y) := frame_step auto_background stats i x st in
            let* (st, ys) := stream_loop auto_background stats frames (S i) st in
            Ok (st, (y ++ ys)%list)
      end.
  End Run.

  (** _compute_multi_iter, multitau.py 716-1087.  If the iterator is empty and nframes is
      one, the local variables of the loop are not bound. *)
  Definition compute_multi_iter (frames : list (C * C)) (t1 t2 : option (list Z)) (period : nat) (level_size chunk_size : option nat)
      (binning : option Z) (method : option string) (count len : option nat) (auto_background : bool)
      (nlevel : option Z) (norm : option Z) (stats : bool) (mode : string) : res (list yielded) :=
    let* S0 := stream_setup t1 t2 period level_size chunk_size binning method count len nlevel mode in
    match frames with
    | [] => if 0 <? s_nframes S0 - 1 then Raise ValueError else Raise UnboundLocalError
    | _ =>
        let* norm := _default_norm norm (s_method S0) cross in
        let* (st, ys) := stream_loop S0 norm (String.eqb mode "full") auto_background stats frames 0 (init_state S0 norm) in
        let* st := finish S0 norm st in
        Ok (ys ++ [yield_of st])%list
    end.

  (** The last value of the generator *)
  Definition last_yield (ys : list yielded) : res yielded :=
    match rev ys with [] => Raise UnboundLocalError | y :: _ => Ok y end.
End Stream.

Section StreamApi.
  Variable K : Fld.
  Notation C := (Cx K).
  Variable W : nat -> Cx K.
  (** Everything that is not determined by the arguments: outcomes of _is_aligned, random
      choices, uninitialized memory *)
  Record world := {
    w_aligned : nat -> bool; w_rs : nat -> bool; w_rs_bg : nat -> bool; w_rs_tail : nat -> bool;
    w_e1 : nat -> nat -> C; w_e2 : nat -> nat -> C; w_es1 : nat -> nat -> K; w_es2 : nat -> nat -> K;
    w_bg : C * C; w_var : K * K }.

  Section Api.
    Variable V : CMon.
    Variable complex : bool.
    Variable cc : bool -> list C -> list C -> option (list Z) -> option (list Z) -> option nat ->
      option Z -> option string -> option (list K) -> option (list K) -> option (cdata K V) -> res (cdata K V).
    Variable ac : bool -> list C -> option (list Z) -> option (list K) -> option nat ->
      option Z -> option string -> option (cdata K V) -> res (cdata K V).
    Variable w : world.
    Definition multi_iter (cross : bool) := compute_multi_iter V complex cross cc ac
      (w_aligned w) (w_rs w) (w_rs_bg w) (w_rs_tail w) (w_e1 w) (w_e2 w) (w_es1 w) (w_es2 w) (w_bg w) (w_var w).

    (** iccorr_multi, multitau.py 1089-1173 *)
    Definition iccorr_multi_gen (frames : list (C * C)) (t1 t2 : option (list Z)) (level_size : option nat) (norm : option Z)
        (method : option string) (count len : option nat) (period : nat) (binning : option Z) (nlevel : option Z)
        (chunk_size : option nat) (auto_background : bool) (mode : string) (stats : bool) :=
      if xorb (given t1) (given t2) then Raise ValueError else
      let* ys := multi_iter true frames t1 t2 period level_size chunk_size binning method count len auto_background nlevel norm stats mode in
      last_yield ys.
    (** iacorr_multi, multitau.py 1176-1254 *)
    Definition iacorr_multi_gen (frames : list C) (t : option (list Z)) (level_size : option nat) (norm : option Z)
        (method : option string) (count len : option nat) (period : nat) (binning : option Z) (nlevel : option Z)
        (chunk_size : option nat) (auto_background : bool) (mode : string) (stats : bool) :=
      let* ys := multi_iter false (map (fun x => (x, c0 K)) frames) t None period level_size chunk_size binning method count len auto_background nlevel norm stats mode in
      last_yield ys.
    (** iccorr, core.py 1299-1393.  _default_norm is applied to [method] before its default
        is determined: a method None is not "diff". *)
    Definition iccorr_gen (frames : list (C * C)) (t1 t2 : option (list Z)) (n : option nat) (norm : option Z)
        (method : option string) (count len chunk_size : option nat) (auto_background : bool) (mode : string) (stats : bool)
        : res (cdata K V * (C * C) * (K * K)) :=
      if xorb (given t1) (given t2) then Raise ValueError else
      let* norm := _default_norm norm (match method with Some m => m | None => "" end) true in
      let* ys := multi_iter true frames t1 t2 1 n chunk_size None method count len auto_background (Some 0%Z) (Some norm) stats mode in
      let* ((fast, _), b, v) := last_yield ys in
      Ok (fast, b, v).
    (** iacorr, core.py 1395-1483; the default of [norm] is 0, of the others None *)
    Definition iacorr_gen (frames : list C) (t : option (list Z)) (n : option nat) (norm : option Z)
        (method : option string) (count len chunk_size : option nat) (auto_background : bool) (mode : string) (stats : bool)
        : res (cdata K V * C * K) :=
      let* norm := _default_norm norm (match method with Some m => m | None => "" end) false in
      let* ys := multi_iter false (map (fun x => (x, c0 K)) frames) t None 1 n chunk_size None method count len auto_background (Some 0%Z) (Some norm) stats mode in
      let* ((fast, _), b, v) := last_yield ys in
      Ok (fast, fst b, fst v).
  End Api.

  Definition iccorr := iccorr_gen (fmon K) false (ccorr W) (acorr W).
  Definition iccorr_complex := iccorr_gen (cmon K) true (ccorr_complex W) (acorr_complex W).
  Definition iacorr := iacorr_gen (fmon K) false (ccorr W) (acorr W).
  Definition iacorr_complex := iacorr_gen (cmon K) true (ccorr_complex W) (acorr_complex W).
  Definition iccorr_multi := iccorr_multi_gen (fmon K) false (ccorr W) (acorr W).
  Definition iccorr_multi_complex := iccorr_multi_gen (cmon K) true (ccorr_complex W) (acorr_complex W).
  Definition iacorr_multi := iacorr_multi_gen (fmon K) false (ccorr W) (acorr W).
  Definition iacorr_multi_complex := iacorr_multi_gen (cmon K) true (ccorr_complex W) (acorr_complex W).
End StreamApi.
