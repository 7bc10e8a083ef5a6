(** Model of shift_data and equalize_data, norm.py 764-816, for the complex correlation data of
    one pixel: n positive delays followed by n - 1 negative ones.  The numbers are the reals.
    Simplification: a floating point zero has a sign, which decides whether the angle of a
    negative number is pi or -pi and whether its root is i or -i times a positive number; the real
    numbers have no such sign, so np.arctan2 and the complex np.sqrt are functions of the
    position in the array as well as of the value. *)
From Coq Require Import Reals.
From Verif Require Import Base FftReals NormModel.
Set Implicit Arguments.

Section Shift.
  Notation C := (Cx RF).
  Notation re := (@cre RF).
  Notation im := (@cim RF).
  (** np.arctan2(y, x) of entry i *)
  Variable arctan2 : nat -> R -> R -> R.
  (** np.sqrt(z) of entry i *)
  Variable csqrt : nat -> C -> C.

  (** np.abs *)
  Definition cabs (z : C) : R := sqrt (re z * re z + im z * im z)%R.
  (** np.exp(1j*phase) *)
  Definition cexp (phase : R) : C := (cos phase, sin phase).

  (** out[k:k+len(vals)] = vals *)
  Definition set_slice (out : list C) (k : nat) (vals : list C) : list C :=
    firstn k out ++ vals ++ skipn (k + length vals) out.
  (** out[-1:-n:-1] = vals, for n = len(vals) + 1 *)
  Definition set_back (out : list C) (vals : list C) : list C := rev (set_slice (rev out) 0 vals).

  (** pos and neg, norm.py 778-779, 806-807 *)
  Definition pos_of (data : list C) (n : nat) : list C := firstn (n - 1) (skipn 1 data).
  Definition neg_of (data : list C) (n : nat) : list C := map (@conj RF) (rev_slice data n).

  (** The angles of an array whose first entry is entry [k] of the data *)
  Definition angles (k : nat) (z : list C) : list R :=
    map (fun p => arctan2 (fst p) (im (snd p)) (re (snd p))) (combine (seq k (length z)) z).

  (** shift_data, norm.py 764-791; [empty] is what np.empty_like returns.  The angle of the
      i-th negative entry has the number [length data + i]. *)
  Definition shift_data (iscomplex : bool) (empty data : list C) : res (list C) :=
    if negb iscomplex then Raise ValueError else
    let n := ((length data + 1) / 2)%nat in
    let pos := pos_of data n in
    let neg := neg_of data n in
    let pos_phase := angles 1 pos in
    let neg_phase := angles (1 + length data) neg in
    let phase := map (fun p => (fst p - snd p) / 2)%R (combine pos_phase neg_phase) in
    let out := set_slice empty 1 (map (fun p => @cscal RF (cabs (fst p)) (cexp (snd p))) (combine pos phase)) in
    let out := set_back out (map (fun p => @cscal RF (cabs (fst p)) (conj (cexp (snd p)))) (combine neg phase)) in
    match data with
    | [] => Raise IndexError
    | x :: _ => Ok (upd out 0 (cabs x, 0%R))
    end.

  (** equalize_data, norm.py 793-816 *)
  Definition equalize_data (iscomplex : bool) (empty data : list C) : res (list C) :=
    if negb iscomplex then Raise ValueError else
    let n := ((length data + 1) / 2)%nat in
    let pos := pos_of data n in
    let neg := neg_of data n in
    let tmp := map (fun p => csqrt (fst p) (cmul (fst (snd p)) (snd (snd p)))) (combine (seq 1 (length pos)) (combine pos neg)) in
    let out := set_slice empty 1 tmp in
    let out := set_back out (map (@conj RF) tmp) in
    match data with
    | [] => Raise IndexError
    | x :: _ => Ok (upd out 0 (cabs x, 0%R))
    end.
End Shift.

(** take_data, norm.py 741-762: data[...,mask,:] of every array but the one at position 1; an array is a
    list over the pixels of lists over the delay. *)
Definition select {A} (mask : list bool) (rows : list A) : list A := map snd (filter fst (combine mask rows)).
Definition take_data {A} (data : list (option (list A))) (mask : list bool) : list (option (list A)) :=
  map (fun p => if negb (fst p =? 1)%nat then option_map (select mask) (snd p) else snd p) (combine (seq 0 (length data)) data).
