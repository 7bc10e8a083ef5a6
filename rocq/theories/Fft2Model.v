(** Fourier transforms of frames and of videos: fft.py 48-85 (library calls), 188-246 (videos)
    and 304-327 (normalization).

    Simplifications: the library transform is the exact two-dimensional discrete Fourier transform
    ([W n] stands for exp(-2 pi i / n)); the rounding to CDTYPE and the dtype argument of
    normalize_fft are left out; the frames given to rfft2 are real (map.py and fft.py only differ for
    complex frames in that the scipy branch does not take the real part). *)
From Verif Require Import Base FftModel VideoModel MapModel.
Set Implicit Arguments.

Section Fft2.
  Variable K : Fld.
  Notation C := (Cx K).
  Variable W : nat -> C.
  Variable junk : nat -> nat -> C.

  (** Entry [k], [l] of the transform. *)
  Definition dft2_at (x : mat C) (k l : nat) : C :=
    Sum (cmon K) (seq 0 (mh x)) (fun i => Sum (cmon K) (seq 0 (mw x)) (fun j =>
      cmul (mat_at x i j) (cmul (cpow (W (mh x)) (i * k)) (cpow (W (mw x)) (j * l))))).

  (** _fft2, fft.py 48-57; the transform of an empty array is a ValueError *)
  Definition _fft2 (x : mat C) : res (mat C) :=
    if (mh x =? 0) || (mw x =? 0) then Raise ValueError else Ok (Mat (mh x) (mw x) (dft2_at x)).

  (** _rfft2, fft.py 70-85, for real frames: the columns 0 ... width//2 of the transform *)
  Definition _rfft2 (x : mat K) : res (mat C) :=
    if (mh x =? 0) || (mw x =? 0) then Raise ValueError
    else Ok (Mat (mh x) (mw x / 2 + 1) (dft2_at (Mat (mh x) (mw x) (fun i j => cofre (mat_at x i j))))).

  (** rfft2_video, fft.py 188-216 *)
  Definition rfft2_video (video : gen (list (mat K))) (kimax kjmax : option Z) : gen (list (mat C)) :=
    gen_each (map_res_v (fun frame => let* f := _rfft2 frame in rfft2_crop junk f kimax kjmax)) (yields video) (ending video).

  (** fft2_video, fft.py 218-246 *)
  Definition fft2_video (video : gen (list (mat C))) (kimax kjmax : option Z) : gen (list (mat C)) :=
    gen_each (map_res_v (fun frame => let* f := _fft2 frame in fft2_crop junk f kimax kjmax)) (yields video) (ending video).

  (** Complex division *)
  Definition cdiv (a b : C) : C := cscal (finv K (cnorm2 b)) (cmul a (conj b)).

  (** normalize_fft, fft.py 304-327: every frame is divided by its entry [0,0] (an IndexError in an empty frame) *)
  Definition normalize_fft_frame (x : mat C) : res (mat C) :=
    if (mh x =? 0) || (mw x =? 0) then Raise IndexError
    else Ok (Mat (mh x) (mw x) (fun i j => cdiv (mat_at x i j) (mat_at x 0 0))).
  Definition normalize_fft (video : gen (list (mat C))) : gen (list (mat C)) :=
    gen_each (map_res_v normalize_fft_frame) (yields video) (ending video).
End Fft2.
