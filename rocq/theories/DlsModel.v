(** Filtering of frames at a wave vector: fft.py 248-302 (dls and dls_video) and map.py 336-343
    (k_point_kernel).

    Simplifications: those of Fft2Model; a frame is a single array; a wave vector is a pair of
    integers and several wave vectors are a list of pairs (kvec of other shapes is left out); several
    windows are a list of arrays of the same shape (an empty stack of windows is left out). *)
From Verif Require Import Base FftModel VideoModel MapModel Fft2Model.
Set Implicit Arguments.

Section Dls.
  Variable K : Fld.
  Notation C := (Cx K).
  Variable W : nat -> C.
  Variable junk : nat -> nat -> C.

  (** Broadcasting of two axes *)
  Definition bdim (a b : nat) : res nat :=
    if a =? b then Ok a else if a =? 1 then Ok b else if b =? 1 then Ok a else Raise ValueError.
  (** Product of two arrays *)
  Definition mat_mul (x y : mat C) : res (mat C) :=
    let* h := bdim (mh x) (mh y) in
    let* w := bdim (mw x) (mw y) in
    Ok (Mat h w (fun i j => cmul (mat_at x (spread (mh x) i) (spread (mw x) j)) (mat_at y (spread (mh y) i) (spread (mw y) j)))).

  (** _ifft2, fft.py 59-68 *)
  Definition idft2_at (x : mat C) (i j : nat) : C :=
    cscal (finv K (fnat K (mh x * mw x)))
      (Sum (cmon K) (seq 0 (mh x)) (fun k => Sum (cmon K) (seq 0 (mw x)) (fun l =>
        cmul (mat_at x k l) (cmul (cpow (conj (W (mh x))) (i * k)) (cpow (conj (W (mw x))) (j * l)))))).
  Definition _ifft2 (x : mat C) : res (mat C) :=
    if (mh x =? 0) || (mw x =? 0) then Raise ValueError else Ok (Mat (mh x) (mw x) (idft2_at x)).

  (** _build_kf, fft.py 248-270, for one wave vector and windows of [h] rows and [w] columns *)
  Definition _build_kf (h w : nat) (kvec : Z * Z) : res (mat C) :=
    let* kf := mset (Mat h w (fun _ _ => c0 K)) (Int (fst kvec)) (Int (snd kvec)) (Mat 1 1 (fun _ _ => c1 K)) in
    _fft2 W kf.
  (** _build_kernel, fft.py 272-274 *)
  Definition _build_kernel (window kf : mat C) : res (mat C) :=
    let* kernel := mat_mul window kf in
    _fft2 W kernel.
  (** _convolve_fft, fft.py 276-281 *)
  Definition _convolve_fft (frame kernel : mat C) (kimax kjmax : option Z) : res (mat C) :=
    let* fout := _fft2 W frame in
    let* fout := mat_mul fout kernel in
    let* fout := fft2_crop junk fout kimax kjmax in
    _ifft2 fout.
  (** dls, fft.py 283-295 *)
  Definition dls (frame window : mat C) (kvec : Z * Z) (kimax kjmax : option Z) : res (mat C) :=
    let* kf := _build_kf (mh window) (mw window) kvec in
    let* kernel := _build_kernel window kf in
    _convolve_fft frame kernel kimax kjmax.
  (** dls_video, fft.py 297-302 *)
  Definition dls_video (video : gen (list (mat C))) (window : mat C) (kvec : Z * Z) (kimax kjmax : option Z) : gen (list (mat C)) :=
    match (let* kf := _build_kf (mh window) (mw window) kvec in _build_kernel window kf) with
    | Raise e => Gen [] (Some e)
    | Ok kernel => gen_each (map_res_v (fun frame => _convolve_fft frame kernel kimax kjmax)) (yields video) (ending video)
    end.

  (** Broadcasting of the first axis of two stacks of arrays *)
  Definition stack_mul (x y : list (mat C)) : res (list (mat C)) :=
    let* n := bdim (length x) (length y) in
    map_res_v (fun i => mat_mul (nth (spread (length x) i) x (Mat 0 0 junk)) (nth (spread (length y) i) y (Mat 0 0 junk))) (seq 0 n).
  (** dls with a list of wave vectors (fft.py 251-265 with is_multi_kvec) and one window or a
      window for each of them.  An empty list of wave vectors is a ValueError (it has no
      pair to unpack), an empty list of windows (an array of shape (0,)) an IndexError. *)
  Definition dls_many (frame : mat C) (windows : list (mat C)) (kvecs : list (Z * Z)) (kimax kjmax : option Z) : res (list (mat C)) :=
    match kvecs, windows with
    | [], _ => Raise ValueError
    | _, [] => Raise IndexError
    | _, window :: _ =>
        let* kf := map_res_v (_build_kf (mh window) (mw window)) kvecs in
        let* kernel := stack_mul windows kf in
        let* kernel := map_res_v (_fft2 W) kernel in
        map_res_v (fun kernel => _convolve_fft frame kernel kimax kjmax) kernel
    end.

  (** k_point_kernel, map.py 336-343 (the transform is that of numpy) *)
  Definition k_point_kernel (window : mat C) (ki kj : Z) : res (mat C) :=
    let* k_window := mset (Mat (mh window) (mw window) (fun _ _ => c0 K)) (Int ki) (Int kj) (Mat 1 1 (fun _ _ => c1 K)) in
    let* real_window := _fft2 W k_window in
    mat_mul real_window window.
End Dls.
