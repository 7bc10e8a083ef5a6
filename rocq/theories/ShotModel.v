(** Model of the noise of the camera in cddm/sim.py (adc, 414-458) and cddm/_sim_nb.py (73-94), with the draws of the random generator as arguments. *)
From Coq Require Import String DecimalString DecimalNat.
From Verif Require Import Base Ordered SimModel.
Set Implicit Arguments.
Local Open Scope nat_scope.

Section Noise.
  Variable K : OFld.
  (** conversion of a non-negative value to an integer, as in SimModel.v *)
  Variable trunc : K -> nat.
  (** [x ** 0.5] of a non-negative value *)
  Variable root : K -> K.
  (** the pixel that the conversion of nan gives; C does not say which one it is *)
  Variable nan_pixel : nat.

  (** shot_noise_gaussian, _sim_nb.py 73-75: [g] is the number that np.random.randn() gives; None is nan (the power 0.5 of a negative value) *)
  Definition shot_noise_gaussian (g photon_noise readout_noise : K) : option K :=
    let s := fadd K photon_noise readout_noise in
    if flt K s (f0 K) then None else Some (fadd K s (fmul K g (root s))).

  (** shot_noise_poisson, _sim_nb.py 77-84: [d] and [e] are the numbers that np.random.poisson(photon_noise) and np.random.poisson(readout_noise) give *)
  Definition shot_noise_poisson (d e : nat) (photon_noise readout_noise : K) : K :=
    let out := f0 K in
    let out := if flt K (f0 K) photon_noise then fadd K out (fnat K d) else out in
    if flt K (f0 K) readout_noise then fadd K out (fnat K e) else out.

  (** the draws that belong to one pixel *)
  Record draws : Type := Draws { normal : K; of_photons : nat; of_readout : nat }.

  (** adc_clean, _sim_nb.py 86-94, of a value that may be nan: both comparisons are false, nan is converted *)
  Definition adc_pixel (x : option K) (saturation black_level : K) (maxv : nat) : nat :=
    match x with None => nan_pixel | Some x => adc_clean K trunc x saturation black_level maxv end.

  (** [bit_depth[:-3]], sim.py 453 *)
  Definition without_bit (bit_depth : string) : string := substring 0 (String.length bit_depth - 3) bit_depth.

  (** [int(...)], sim.py 453; only strings of digits are modelled (no sign, no spaces, no underscores) *)
  Definition int_of (s : string) : res nat :=
    match NilZero.uint_of_string s with Some u => Ok (Nat.of_uint u) | None => Raise ValueError end.

  (** The types of the images, sim.py 454-457 *)
  Inductive pixels : Type := U8 | U16.

  (** max_value, sim.py 453-457; np.uint16 keeps the lowest 16 bits *)
  Definition max_value_of (bits : nat) : pixels * nat :=
    let max_value := 2 ^ bits - 1 in
    if max_value <? 256 then (U8, max_value) else (U16, max_value mod 2 ^ 16).

  (** adc, sim.py 414-458: [frame] is the list of the pixels, each with its draws *)
  Definition noisy_adc (frame : list (K * draws)) (saturation black_level : K) (bit_depth : string) (readout_noise : K) (noise_model : string) : res (pixels * list nat) :=
    let* frame := (if string_dec noise_model "gaussian" then
                     Ok (map (fun p => shot_noise_gaussian (normal (snd p)) (fst p) readout_noise) frame)
                   else if string_dec noise_model "poisson" then
                     Ok (map (fun p => Some (shot_noise_poisson (of_photons (snd p)) (of_readout (snd p)) (fst p) readout_noise)) frame)
                   else if string_dec noise_model "none" then Ok (map (fun p => Some (fst p)) frame)
                   else Raise ValueError) in
    let* bits := int_of (without_bit bit_depth) in
    let m := max_value_of bits in
    Ok (fst m, map (fun x => adc_pixel x saturation black_level (snd m)) frame).
End Noise.
