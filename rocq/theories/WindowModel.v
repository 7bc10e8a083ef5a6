(** Model of the window functions, window.py.

    Simplifications: real numbers; shape is a pair of lengths of at least one; the optional array [out] has
    that shape (its contents are the parameter [out]: every entry is overwritten). *)
From Coq Require Import Reals ZArith List.
From Verif Require Import Base MapModel.
Set Implicit Arguments.
Local Open Scope R_scope.

(** np.arange(-l/2. + .5, l/2. + .5): entry i of l *)
Definition axis (l i : nat) : R := - INR l / 2 + / 2 + INR i.

(** _r, window.py 11-17 *)
Definition _r (h w : nat) (scale : R) : mat R :=
  let ny := INR h / 2 in let nx := INR w / 2 in
  Mat h w (fun i j => sqrt ((axis w j / (nx * scale)) ^ 2 + (axis h i / (ny * scale)) ^ 2)).

(** out[mask] = tmp[mask] *)
Definition assign_where (mask : mat bool) (tmp out : mat R) : mat R := Mat (mh out) (mw out) (fun i j => if mat_at mask i j then mat_at tmp i j else mat_at out i j).
Definition mat_map {A B} (f : A -> B) (x : mat A) : mat B := Mat (mh x) (mw x) (fun i j => f (mat_at x i j)).
Definition rleb (x y : R) : bool := if Rle_dec x y then true else false.
Definition rltb (x y : R) : bool := if Rlt_dec x y then true else false.

(** blackman, window.py 20-41 *)
Definition blackman (h w : nat) : mat R :=
  let r := _r h w 1 in
  let out := mat_map (fun r => 42 / 100 + 5 / 10 * cos (1 * PI * r) + 8 / 100 * cos (2 * PI * r)) r in
  assign_where (mat_map (fun r => rleb 1 r) r) (mat_map (fun _ => 0) r) out.

(** gaussian, window.py 43-65 *)
Definition gaussian (h w : nat) (sigma : R) : res (mat R) :=
  if rleb sigma 0 then Raise ValueError
  else Ok (mat_map (fun r => exp (- r ^ 2)) (_r h w (sigma * sqrt 2))).

(** _tukey, window.py 107-122 *)
Definition _tukey (r : mat R) (alpha rmax : R) : res (mat R) :=
  if rltb 1 alpha then Raise ValueError
  else if rltb alpha 0 then Raise ValueError
  else
    let out := mat_map (fun _ => 1) r in
    let alpha := alpha * rmax in
    let mask := mat_map (fun r => rltb (rmax - alpha) r) r in
    let out := if rltb 0 alpha then assign_where mask (mat_map (fun r => 1 / 2 * (1 - cos (PI * (r - rmax) / alpha))) r) out else out in
    Ok (assign_where (mat_map (fun r => rleb rmax r) r) (mat_map (fun _ => 0) r) out).

(** tukey, window.py 67-87; hann, window.py 89-105 *)
Definition tukey (h w : nat) (alpha : R) : res (mat R) := _tukey (_r h w 1) alpha 1.
Definition hann (h w : nat) : res (mat R) := _tukey (_r h w 1) 1 1.
