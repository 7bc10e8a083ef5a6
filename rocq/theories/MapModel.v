(** Model of the handling of two-dimensional Fourier data: fft.py 87-186 (cropping) and
    map.py 376-555 (conversions between half-plane and full-plane data).

    Simplifications: a single frame (the leading axes "..." of the arrays and the axes
    argument are left out: the transformed axes are the last two); the contents of an array
    are a function of the row and the column; np.empty is an arbitrary function [junk]. *)
From Verif Require Import Base.
Set Implicit Arguments.

(* ------------------------------------------------------------------ *)
(** * Two-dimensional numpy arrays, slices and slice assignment *)

(** An array of [mh] rows and [mw] columns; only the entries inside count. *)
Record mat (A : Type) := Mat { mh : nat; mw : nat; mat_at : nat -> nat -> A }.

(** An index of one axis: start:stop:step or an integer. *)
Inductive ix := Slice (start stop : option Z) (step : Z) | Int (i : Z).

(** PySlice_AdjustIndices of CPython: a bound of a slice of an axis of length [n], for a
    positive (negative) step. *)
Definition clip (n : Z) (neg : bool) (i : Z) : Z :=
  let lower := if neg then (-1)%Z else 0%Z in
  let upper := if neg then (n - 1)%Z else n in
  let i := if (i <? 0)%Z then (i + n)%Z else i in
  Z.min (Z.max i lower) upper.

(** The positions selected by start:stop:step in an axis of length [n], in order. *)
Definition slice_indices (n : nat) (start stop : option Z) (step : Z) : list nat :=
  let n := Z.of_nat n in
  let neg := (step <? 0)%Z in
  let start := match start with Some s => clip n neg s | None => if neg then (n - 1)%Z else 0%Z end in
  let stop := match stop with Some s => clip n neg s | None => if neg then (-1)%Z else n end in
  let len := if neg then (if (stop <? start)%Z then ((start - stop - 1) / (- step) + 1)%Z else 0%Z)
             else (if (start <? stop)%Z then ((stop - start - 1) / step + 1)%Z else 0%Z) in
  map (fun k => Z.to_nat (start + Z.of_nat k * step)) (seq 0 (Z.to_nat len)).

(** The positions selected by an index.  An integer selects one position; the axis it removes is
    kept with length 1, which is how numpy broadcasts it back in an assignment. *)
Definition indices (n : nat) (i : ix) : res (list nat) :=
  match i with
  | Slice a b s => Ok (slice_indices n a b s)
  | Int z => match py_index n z with Some k => Ok [k] | None => Raise IndexError end
  end.

(** x[i, j] *)
Definition mget {A} (x : mat A) (i j : ix) : res (mat A) :=
  let* ri := indices (mh x) i in
  let* ci := indices (mw x) j in
  Ok (Mat (length ri) (length ci) (fun a b => mat_at x (nth a ri 0) (nth b ci 0))).

(** Where position [i] occurs in a list of (distinct) positions. *)
Fixpoint position (i : nat) (l : list nat) : option nat :=
  match l with
  | [] => None
  | x :: l => if x =? i then Some 0 else match position i l with Some k => Some (S k) | None => None end
  end.

(** An axis of length [a] is broadcast to length [b]: the position that is read for position [k]. *)
Definition spread (a k : nat) : nat := if a =? 1 then 0 else k.

(** x[i, j] = y *)
Definition mset {A} (x : mat A) (i j : ix) (y : mat A) : res (mat A) :=
  let* ri := indices (mh x) i in
  let* ci := indices (mw x) j in
  if (((mh y =? length ri) || (mh y =? 1)) && ((mw y =? length ci) || (mw y =? 1)))%bool then
    Ok (Mat (mh x) (mw x) (fun r c =>
          match position r ri, position c ci with
          | Some a, Some b => mat_at y (spread (mh y) a) (spread (mw y) b)
          | _, _ => mat_at x r c
          end))
  else Raise ValueError.

(** np.empty((h, w)) *)
Definition np_empty {A} (junk : nat -> nat -> A) (h w : Z) : res (mat A) :=
  if ((h <? 0) || (w <? 0))%Z%bool then Raise ValueError else Ok (Mat (Z.to_nat h) (Z.to_nat w) junk).

(** [a:b], [a:], [:b], [:] *)
Definition sl (a b : Z) : ix := Slice (Some a) (Some b) 1.
Definition sfrom (a : Z) : ix := Slice (Some a) None 1.
Definition sto (b : Z) : ix := Slice None (Some b) 1.
Definition sall : ix := Slice None None 1.
(** [a:b:-1] *)
Definition srev (a b : Z) : ix := Slice (Some a) (Some b) (-1).

(* ------------------------------------------------------------------ *)
(** * fft.py: cropping *)

(** fft.py 87-95: [None] stands for (None, None). *)
Definition _determine_kimax (kisize : Z) (kimax : option Z) : option (Z * Z) :=
  match kimax with
  | None => Some ((kisize / 2)%Z, kisize)
  | Some kimax => let n := (kimax * 2 + 1)%Z in
                  if (n >? (kisize / 2) * 2 + 1)%Z then None else Some (kimax, (kimax * 2 + 1)%Z)
  end.

(** fft.py 97-104 *)
Definition _determine_kjmax (kjsize : Z) (kjmax : option Z) : option (Z * Z) :=
  match kjmax with
  | None => Some ((kjsize - 1)%Z, kjsize)
  | Some kjmax => if (kjmax >? kjsize - 1)%Z then None else Some (kjmax, (kjmax + 1)%Z)
  end.

(** The string argument mode of fft.py 106. *)
Inductive fftmode := Rfft2 | Fft2 | OtherMode.

(** fft.py 106-124: ((kisize, kjsize), istop, jstop) *)
Definition _determine_cutoff_indices (h w : nat) (kimax kjmax : option Z) (mode : fftmode) : res (Z * Z * Z * Z) :=
  let ki := _determine_kimax (Z.of_nat h) kimax in
  let* kj := match mode with
             | Rfft2 => Ok (_determine_kjmax (Z.of_nat w) kjmax)
             | Fft2 => Ok (_determine_kimax (Z.of_nat w) kjmax)
             | OtherMode => Raise ValueError
             end in
  match ki with
  | None => Raise ValueError
  | Some (kimax, kisize) =>
      match kj with
      | None => Raise ValueError
      | Some (kjmax, kjsize) => Ok (kisize, kjsize, (kimax + 1)%Z, (kjmax + 1)%Z)
      end
  end.

Section Crop.
  Variable A : Type.
  Variable junk : nat -> nat -> A.

  (** fft.py 126-154 *)
  Definition rfft2_crop (x : mat A) (kimax kjmax : option Z) : res (mat A) :=
    match kimax, kjmax with
    | None, None => Ok x
    | _, _ =>
        let* (kisize, kjsize, istop, jstop) := _determine_cutoff_indices (mh x) (mw x) kimax kjmax Rfft2 in
        let* out := np_empty junk kisize kjsize in
        let* y := mget x (sto istop) (sto jstop) in
        let* out := mset out (sto istop) sall y in
        let* y := mget x (sfrom (- istop + 1)) (sto jstop) in
        mset out (sfrom (- istop + 1)) sall y
    end.

  (** fft.py 156-186 *)
  Definition fft2_crop (x : mat A) (kimax kjmax : option Z) : res (mat A) :=
    match kimax, kjmax with
    | None, None => Ok x
    | _, _ =>
        let* (kisize, kjsize, istop, jstop) := _determine_cutoff_indices (mh x) (mw x) kimax kjmax Fft2 in
        let* out := np_empty junk kisize kjsize in
        let* y := mget x (sto istop) (sto jstop) in
        let* out := mset out (sto istop) (sto jstop) y in
        let* y := mget x (sfrom (- istop + 1)) (sto jstop) in
        let* out := mset out (sfrom (- istop + 1)) (sto jstop) y in
        let* y := mget x (sto istop) (sfrom (- jstop + 1)) in
        let* out := mset out (sto istop) (sfrom (- jstop + 1)) y in
        let* y := mget x (sfrom (- istop + 1)) (sfrom (- jstop + 1)) in
        mset out (sfrom (- istop + 1)) (sfrom (- jstop + 1)) y
    end.
End Crop.

(* ------------------------------------------------------------------ *)
(** * map.py: half-plane and full-plane data *)

(** map.py 376-400.  [shape] is (height, width). *)
Definition as_fft2_shape (kisize kjsize : option Z) (shape : option (Z * Z)) : res (Z * Z) :=
  let* kj :=
    match kjsize with
    | None => match shape with None => Raise ValueError | Some (_, w) => Ok w end
    | Some kjsize =>
        let kjsize := (kjsize * 2 - 1)%Z in
        match shape with
        | None => Ok kjsize
        | Some (_, width) => if (kjsize =? width + 1)%Z then Ok width
                             else if (kjsize >? width)%Z then Raise ValueError else Ok kjsize
        end
    end in
  let* ki :=
    match kisize with
    | None => match shape with None => Raise ValueError | Some (h, _) => Ok h end
    | Some kisize =>
        match shape with
        | None => Ok kisize
        | Some (height, _) => if (kisize >? height)%Z then Raise ValueError else Ok kisize
        end
    end in
  Ok (ki, kj).

Section Halves.
  Variable A : Type.
  Variable junk : nat -> nat -> A.
  (** np.conj for complex data, the identity otherwise (map.py 539-542) *)
  Variable cj : A -> A.
  (** the value that marks missing data: False, nan or -1 (map.py 441-450) *)
  Variable fill : A.

  (** map.py 470-493 *)
  Definition as_rfft2_data (a : mat A) : res (mat A) :=
    let whalf := (Z.of_nat (mw a) / 2 + 1)%Z in
    mget a sall (sl 0 whalf).

  (** map.py 409-468 *)
  Definition as_rfft2_conj (a : mat A) : res (mat A) :=
    let whalf := (Z.of_nat (mw a) / 2 + 1)%Z in
    let* m2 := mget a sall (sl 0 whalf) in
    let m2 := Mat (mh m2) (mw m2) (fun _ _ => fill) in
    let* y := mget a (srev (-1) 0) (srev (-1) (- whalf)) in
    let* m2 := mset m2 (sfrom 1) (sfrom 1) y in
    let* y := mget a (Int 0) (srev (-1) (- whalf)) in
    mset m2 (Int 0) (sfrom 1) y.

  (** map.py 495-555 *)
  Definition from_rfft2_data (a : mat A) (shape : option (Z * Z)) : res (mat A) :=
    let* (newh, neww) := as_fft2_shape (Some (Z.of_nat (mh a))) (Some (Z.of_nat (mw a))) shape in
    let* out := np_empty junk newh neww in
    let whalf := (neww / 2 + 1)%Z in
    let* out := mset out sall (sl 0 whalf) a in
    let whalf2 := ((neww + 1) / 2)%Z in
    let conj (m : mat A) := Mat (mh m) (mw m) (fun i j => cj (mat_at m i j)) in
    let* y := mget a (srev (-1) 0) (srev (-1) (- whalf)) in
    let* out := mset out (sfrom 1) (sfrom whalf2) (conj y) in
    let* y := mget a (Int 0) (srev (-1) (- whalf)) in
    mset out (Int 0) (sfrom whalf2) (conj y).
End Halves.

(** map.py 402-407 (np.logical_or of two arrays of one shape) *)
Definition as_rfft2_mask (a : mat bool) : res (mat bool) :=
  let* m1 := as_rfft2_data a in
  let* m2 := as_rfft2_conj false a in
  Ok (Mat (mh m1) (mw m1) (fun i j => mat_at m1 i j || mat_at m2 i j)).
