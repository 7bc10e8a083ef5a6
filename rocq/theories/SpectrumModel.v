(** Model of the spectra that are shown and simulated: norm_rfft2 (video.py 607-634) and form_factor
    (sim.py 31-76).

    Simplifications: the transform is the exact discrete Fourier transform, of one frame; [modulus] is
    np.abs of a complex number and [root] the square root; a value of NaN is [NonFin]; zero has no
    sign; psf_gauss is a parameter; the coordinates i * height / navg are truncated exactly. *)
From Verif Require Import Base Ordered NormModel FftModel VideoModel MapModel Fft2Model SimModel.
Set Implicit Arguments.

Section Shown.
  Variable K : OFld.
  Notation C := (Cx K).
  Variable W : nat -> C.
  Variable modulus : C -> K.
  Local Notation "x / y" := (fdiv K x y).
  Local Notation "x + y" := (fadd K x y).
  Local Notation "x * y" := (fmul K x y).
  Local Notation two := (f1 K + f1 K).

  Inductive fft_mode := MReal | MImag | MAbs | MOther.
  (** im.max() of an array that is not empty *)
  Definition mat_max (x : mat K) : K :=
    fold_left (fun m p => if flt K m (mat_at x (fst p) (snd p)) then mat_at x (fst p) (snd p) else m) (list_prod (seq 0 (mh x)) (seq 0 (mw x))) (mat_at x 0 0).
  (** im.clip(0,1) after a division by [c]: infinities are clipped as well, 0/0 is NaN *)
  Definition clip01 (x : K) : K := if flt K x (f0 K) then f0 K else if flt K (f1 K) x then f1 K else x.
  Definition shown_at (x c shift : K) : fval K :=
    if flt K c (f0 K) || flt K (f0 K) c then Fin (clip01 (x / c + shift))
    else if flt K x (f0 K) then Fin (f0 K) else if flt K (f0 K) x then Fin (f1 K) else NonFin.
  (** np.fft.fftshift(im, 0) *)
  Definition fftshift0 (A : Type) (x : mat A) : mat A :=
    Mat (mh x) (mw x) (fun i j => mat_at x ((i + (mh x - mh x / 2)) mod mh x)%nat j).
  (** norm_rfft2 and its _clip_fft, video.py 607-634 *)
  Definition _clip_fft (clip : option K) (mode : fft_mode) (im : mat K) : res (mat (fval K)) :=
    let* im := _rfft2 W im in
    let part := match mode with MReal => cre | MImag => cim | _ => modulus end in
    let im := Mat (mh im) (mw im) (fun i j => part (mat_at im i j)) in
    let im := Mat (mh im) (mw im) (fun i j => if (i =? 0)%nat && (j =? 0)%nat then f0 K else mat_at im i j) in
    let clip_factor := match clip with None => mat_max im | Some c => c end in
    let im := match mode with
              | MAbs => Mat (mh im) (mw im) (fun i j => shown_at (mat_at im i j) clip_factor (f0 K))
              | _ => Mat (mh im) (mw im) (fun i j => shown_at (mat_at im i j) (clip_factor * two) (f1 K / two))
              end in
    Ok (fftshift0 im).
  Definition norm_rfft2 (clip : option K) (mode : fft_mode) : res (mat K -> res (mat (fval K))) :=
    match mode with MOther => Raise ValueError | _ => Ok (_clip_fft clip mode) end.
End Shown.

Section FormFactor.
  Variable K : OFld.
  Notation C := (Cx K).
  Variable W : nat -> C.
  Variable root : K -> K.
  (** psf_gauss at the pixel (i0, j0) of the particle with the coordinates i * height / navg, j * width / navg *)
  Variable psf : nat -> nat -> Z -> Z -> Z.

  Inductive plane := PRfft2 | PFft2 | POther.
  Definition top_of (dtype : fdtype) : Z := match dtype with DUint8 => 256 | _ => 65536 end.
  (** The entries of an image as numbers; they are not negative *)
  Definition image_at (im : image) (i j : nat) : K := fnat K (Z.to_nat (nth j (nth i im []) 0%Z)).
  (** One position of the mesh: draw, multiply with the window, transform, square of the modulus *)
  Definition power_at (window : mat K) (top size : Z) (navg : nat) (mode : plane) (i j : nat) : res (mat K) :=
    let h := Z.of_nat (i * mh window / navg) in
    let w := Z.of_nat (j * mw window / navg) in
    let* im := draw_psf top (fun _ => psf i j) size 0 [(h, w)] (repeat (repeat 0%Z (mw window)) (mh window)) in
    let im := Mat (mh window) (mw window) (fun a b => fmul K (image_at im a b) (mat_at window a b)) in
    let* f := (match mode with
               | PRfft2 => _rfft2 W im
               | PFft2 => _fft2 W (Mat (mh im) (mw im) (fun a b => cofre (mat_at im a b)))
               | POther => Raise ValueError
               end) in
    Ok (Mat (mh f) (mw f) (fun a b => cnorm2 (mat_at f a b))).
  (** out += p, where out is the number 0 or an array *)
  Definition plus (out : option (mat K)) (p : mat K) : mat K :=
    match out with None => p | Some o => Mat (mh o) (mw o) (fun a b => fadd K (mat_at o a b) (mat_at p a b)) end.
  Definition mesh (navg : nat) : list (nat * nat) := list_prod (seq 0 navg) (seq 0 navg).
  Definition sum_powers (window : mat K) (top size : Z) (navg : nat) (mode : plane) : res (option (mat K)) :=
    fold_left (fun r p => let* out := r in let* f := power_at window top size navg mode (fst p) (snd p) in Ok (Some (plus out f))) (mesh navg) (Ok None).
  (** form_factor, sim.py 31-76; [size] is round(3*sigma).  None: the number 0.0 *)
  Definition form_factor (window : mat K) (size : Z) (intensity navg : Z) (dtype : fdtype) (mode : plane) : res (option (mat K)) :=
    let* dtype := _inspect_frame_dtype dtype intensity in
    let* out := sum_powers window (top_of dtype) size (Z.to_nat navg) mode in
    if (navg =? 0)%Z then Raise ZeroDivisionError
    else match out with
         | None => Ok None
         | Some o => Ok (Some (Mat (mh o) (mw o) (fun a b => root (fdiv K (mat_at o a b) (fnat K (Z.to_nat navg * Z.to_nat navg))))))
         end.
End FormFactor.
