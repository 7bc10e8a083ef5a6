(** multilevel, merge_multilevel, log_average and log_merge for arrays of any number of axes,
    the delays along the last one, multitau.py 85-101, 1407-1533 and 1558-1611, norm.py 845-858.
    Simplifications: as in LevelModel.v and LogFoldModel.v.  A gufunc is called for every index
    of the leading axes. *)
From Verif Require Import Base Ordered AvgModel Kernels VecModel NormModel NormArrayModel MultiModel LevelModel LogFoldModel.
Set Implicit Arguments.

(** * numpy *)
(** The element with index [p] of an array is at this place in memory order, and back *)
Definition flat_index (s p : list nat) : nat := fold_left (fun acc di => acc * fst di + snd di) (combine s p) 0.
Fixpoint of_flat_rev (s : list nat) (k : nat) : list nat := match s with [] => [] | d :: s => k mod d :: of_flat_rev s (k / d) end.
Definition of_flat (s : list nat) (k : nat) : list nat := rev (of_flat_rev (rev s) k).
Definition size_of (s : list nat) : nat := fold_right Nat.mul 1 s.
(** x.reshape(s) *)
Definition reshape_to (A : Type) (x : nd A) (s : list nat) : res (nd A) :=
  if size_of s =? size_of (shape x) then Ok (Nd s (fun p => at_ x (of_flat (shape x) (flat_index s p)))) else Raise ValueError.
(** x.transpose(axes), [axes] a permutation: axis j of the result is axis axes[j] *)
Fixpoint place_of (a : nat) (axes : list nat) : nat := match axes with [] => 0 | b :: axes => if a =? b then 0 else S (place_of a axes) end.
Definition transpose_to (A : Type) (x : nd A) (axes : list nat) : nd A :=
  Nd (map (fun a => nth a (shape x) 0) axes) (fun p => at_ x (map (fun a => nth (place_of a axes) p 0) (seq 0 (rank x)))).
(** l.insert(-1, v) *)
Definition insert_before_last (A : Type) (v : A) (l : list A) : list A := removelast l ++ v :: skipn (length l - 1) l.
(** x.shape[-1] *)
Definition last_of (A : Type) (x : nd A) : res nat := if rank x =? 0 then Raise IndexError else Ok (last (shape x) 0).
(** x[..., start::step] with [m] entries *)
Definition slice_last (A : Type) (x : nd A) (start step m : nat) : nd A :=
  Nd (removelast (shape x) ++ [m]) (fun p => at_ x (removelast p ++ [start + step * last p 0])).
(** np.concatenate((a, b), axis = -1) *)
Definition concat_last (A : Type) (a b : nd A) : res (nd A) :=
  if (rank a =? 0) || (rank b =? 0) then Raise ValueError
  else if list_eq_dec Nat.eq_dec (removelast (shape a)) (removelast (shape b)) then
    let m := last (shape a) 0 in
    Ok (Nd (removelast (shape a) ++ [m + last (shape b) 0])
           (fun p => if last p 0 <? m then at_ a p else at_ b (removelast p ++ [last p 0 - m])))
  else Raise ValueError.
(** A function of rows, called for every index of the leading axes; [m] is the length of its results *)
Definition by_rows (A B : Type) (d : B) (f : list A -> list B) (m : nat) (x : nd A) : nd B :=
  Nd (removelast (shape x) ++ [m]) (fun p => nth (last p 0) (f (row x (removelast p))) d).
(** out[l, ...] = rows[l]: a new array with one more axis; [s] is the shape of each row *)
Definition stack (A : Type) (d : A) (s : list nat) (rows : list (nd A)) : nd A :=
  Nd (length rows :: s) (fun p => at_ (nth (hd 0 p) rows (Nd [] (fun _ => d))) (tl p)).
(** x[l, ...] and x[1:] *)
Definition item (A : Type) (x : nd A) (l : nat) : nd A := Nd (tl (shape x)) (fun p => at_ x (l :: p)).
Definition items_from_1 (A : Type) (x : nd A) : nd A := Nd (hd 0 (shape x) - 1 :: tl (shape x)) (fun p => at_ x (S (hd 0 p) :: tl p)).

Section LevelArray.
  Variable V : Type.
  Variable v0 : V.
  Variable conv : list V -> res (list V).
  (** convolve(data), along the last axis *)
  Definition conv_nd (x : nd V) : res (nd V) :=
    let* _ := map_res (fun p => conv (row x p)) (indices (removelast (shape x))) in
    Ok (by_rows v0 (fun l => match conv l with Ok r => r | Raise _ => [] end) (last (shape x) 0) x).
  (** One level, multitau.py 1451-1457 *)
  Definition level_nd (size : nat) (data : nd V) : nd (option V) :=
    Nd (removelast (shape data) ++ [size]) (fun p => if last p 0 <? last (shape data) 0 then Some (at_ data p) else None).
  (** The data of the next level, multitau.py 1459-1464 and choose_data, 85-101 *)
  Definition next_nd (binning : Z) (r : bool) (data : nd V) : res (nd V) :=
    let n := last (shape data) 0 in
    if (binning =? BINNING_MEAN)%Z then let* c := conv_nd data in Ok (slice_last c 0 2 ((last (shape c) 0 + 1) / 2))
    else if (binning =? BINNING_FIRST)%Z then Ok (slice_last data 0 2 ((n + 1) / 2))
    else Ok (if r then slice_last data 1 2 ((n - 1 + 1) / 2) else slice_last data 0 2 ((n - 1 + 1) / 2)).
  (** The loop over levels, multitau.py 1450-1464 *)
  Fixpoint level_rows_nd (size : nat) (binning : Z) (r : nat -> bool) (l more : nat) (data : nd V) : res (list (nd (option V))) :=
    match more with
    | O => Ok [level_nd size data]
    | S more =>
        let* next := next_nd binning (r l) data in
        let* rows := level_rows_nd size binning r (S l) more next in
        Ok (level_nd size data :: rows)
    end.
  (** multilevel after the decision about folding, multitau.py 1443-1464 *)
  Definition multilevel_nd (data : nd V) (size : nat) (binning : Z) (r : nat -> bool) : res (nd (option V)) :=
    let* n := last_of data in
    let* rows := level_rows_nd size binning r 0 (levels_of size n) data in
    Ok (stack None (removelast (shape data) ++ [size]) rows).
  (** merge_multilevel, multitau.py 1465-1504 *)
  Definition merge_half_nd (W : Type) (data : nd W) : res (list nat * nd W) :=
    let* n := last_of data in
    if negb (n mod 2 =? 0) then Raise ValueError
    else
      let levels := hd 0 (shape data) in
      let out_size := n / 2 * levels in
      let x := flat_map (fun i => map (fun k => k * 2 ^ i) (skipn (n / 2) (seq 0 n))) (seq 0 levels) in
      let data := slice_last data (n / 2) 1 (n - n / 2) in
      let axes := seq 0 (rank data) in
      let axes := insert_before_last (hd 0 axes) (tl axes) in
      let data := transpose_to data axes in
      let* y := reshape_to data (firstn (rank data - 2) (shape data) ++ [out_size]) in
      Ok (x, y).
  Definition merge_full_nd (W : Type) (data : nd W) : res (list nat * nd W) :=
    let* n := last_of data in
    if hd 0 (shape data) =? 0 then Raise IndexError
    else
      let y0 := item data 0 in
      let* xy := merge_half_nd (items_from_1 data) in
      let* y := concat_last y0 (snd xy) in
      Ok (seq 0 n ++ map (fun x => x * 2) (fst xy), y).
End LevelArray.

Section LogArray.
  Variable K : OFld.
  Variable junk : nat -> K.
  Notation C := (Cx K).
  (** fold_data of arrays, norm.py 845-858; the length of the last axis becomes (n+1)//2 *)
  Definition fold_nd (x : nd C) : nd C := by_rows (c0 K) (@folded_data K) ((last (shape x) 0 + 1) / 2) x.
  Definition fold_rows_nd (x : nd (option C)) : nd (option C) := by_rows None (fold_row K) ((last (shape x) 0 + 1) / 2) x.
  (** multilevel, multitau.py 1407-1463 *)
  Definition multilevel_array (iscomplex : bool) (data : nd C) (level_size binning : Z) (fold : option bool) (r : nat -> bool) : res (nd (option C)) :=
    let* binning := _inspect_binning binning in
    if (level_size <? 2)%Z then Raise ValueError
    else
      let* data := decide_fold iscomplex fold (fold_nd data) data in
      multilevel_nd (c0 K) (complex_conv K junk) data (Z.to_nat level_size) binning r.
  (** log_average, multitau.py 1506-1533 *)
  Definition log_average_array (iscomplex : bool) (data : nd C) (size : Z) (fold : option bool) (r : nat -> bool) : res (list nat * nd (option C)) :=
    if (size <? 1)%Z then Raise ValueError
    else
      let* ldata := multilevel_array iscomplex data (size * 2) BINNING_MEAN fold r in
      merge_full_nd ldata.
  (** log_merge with _period_from_data, multitau.py 1558-1611 *)
  Definition log_merge_array (lin_complex multi_complex : bool) (lin : nd C) (multi : nd (option C)) (binning : Z) (fold : option bool) (r : nat -> bool)
    : res (list nat * nd (option C)) :=
    let* binning := _inspect_binning binning in
    let* lin := decide_fold lin_complex fold (fold_nd lin) lin in
    let* multi := decide_fold multi_complex fold (fold_rows_nd multi) multi in
    let* nfast := last_of lin in
    let* nslow := last_of multi in
    if nslow =? 0 then Raise ZeroDivisionError
    else
      let period := nfast / nslow in
      if negb (nfast mod nslow =? 0) then Raise ValueError
      else
        let* ldata := multilevel_array lin_complex lin (Z.of_nat nslow) binning (Some false) r in
        let* fast := merge_full_nd ldata in
        let* slow := merge_half_nd multi in
        let* y := concat_last (snd fast) (snd slow) in
        Ok (fst fast ++ map (fun x => 2 * period * x) (fst slow), y).
End LogArray.
