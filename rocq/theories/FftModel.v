(** Model of the FFT-based correlation functions: kernels of cddm/_core_nb.py
    571-699 and the functions of cddm/core.py 192-245, 828-859 and 926-957.

    The library FFT (cddm/fft.py 26-46: mkl_fft, scipy or numpy) is modelled as the
    exact discrete Fourier transform over complex numbers with components in a
    field; [W N] is the number the library calls exp(-2*pi*i/N).  Further
    simplifications as in CoreModel.v (one time series, exact numbers). *)
From Verif Require Import Base Kernels CoreModel.
Set Implicit Arguments.

Section Fft.
  Variable K : Fld.
  Notation C := (Cx K).
  Variable W : nat -> C.

  Fixpoint cpow (z : C) (n : nat) : C :=
    match n with O => c1 K | S n => cmul z (cpow z n) end.

  (** Entry [k] of the transform of [x] with root [w]. *)
  Definition dft_at (w : C) (x : list C) (k : nat) : C :=
    Sum (cmon K) (seq 0 (length x)) (fun j => cmul (nth j x (c0 K)) (cpow w (j * k))).

  (** _fft, fft.py 26-46; the transform of an empty array is a ValueError *)
  Definition _fft (x : list C) : res (list C) :=
    match x with
    | [] => Raise ValueError
    | _ => Ok (map (dft_at (W (length x)) x) (seq 0 (length x)))
    end.

  (** _ifft, fft.py 26-46 *)
  Definition _ifft (x : list C) : res (list C) :=
    match x with
    | [] => Raise ValueError
    | _ => Ok (map (fun k => cscal (finv K (fnat K (length x))) (dft_at (conj (W (length x))) x k))
                   (seq 0 (length x)))
    end.

  (** Elementwise product of two equally long arrays. *)
  Definition mul_arrays (x y : list C) : list C := map (fun p => cmul (fst p) (snd p)) (combine x y).

  (** _fill_data, _core_nb.py 615-620.  A negative index counts from the end; a
      still smaller one is an unchecked write outside the array. *)
  Definition _fill_data (x : list C) (t : list Z) (out : list C) : res (list C) :=
    fold_left (fun r (s : C * Z) =>
      let* out := r in
      let (v, m) := s in
      if (m <? Z.of_nat (length out))%Z then
        match py_index (length out) m with
        | Some i => Ok (upd out i v)
        | None => Raise OutOfBounds
        end
      else Ok out) (combine x t) (Ok out).

  (** _fill_ones, _core_nb.py 622-627 *)
  Definition _fill_ones (t : list Z) (out : list C) : res (list C) :=
    fold_left (fun r (m : Z) =>
      let* out := r in
      if (m <? Z.of_nat (length out))%Z then
        match py_index (length out) m with
        | Some i => Ok (upd out i (c1 K))
        | None => Raise OutOfBounds
        end
      else Ok out) t (Ok out).

  (** out[:] += f(_out[:n]); out[1:] += f(_out[-1:-n:-1]) with n = len(out)
      (_core_nb.py 593-594, 650-651, 678-679 and 681-682).  The slices of [_out]
      have the lengths of those of [out] unless n > len(_out), which numpy reports
      as a ValueError.  For n = 0 the second slice is _out[-1:0:-1], which fits
      (by broadcasting) only if it has at most one element. *)
  Definition add_folded (M : CMon) (f : C -> M) (_out : list C) (out : list M) : res (list M) :=
    let n := length out in
    let N := length _out in
    if (N <? n)%nat then Raise ValueError
    else if (n =? 0)%nat && (2 <? N)%nat then Raise ValueError
    else Ok (map (fun k =>
           let v := madd M (nth k out (m0 M)) (f (nth k _out (c0 K))) in
           if (k =? 0)%nat then v else madd M v (f (nth (N - k) _out (c0 K)))) (seq 0 n)).

  (** n = (len(out)+1)//2; out[:n] += f(_out[:n]); out[-1:-n:-1] += f(_out[-1:-n:-1])
      (_core_nb.py 590-591, 647-648, 695-696 and 698-699) *)
  Definition add_signed (M : CMon) (f : C -> M) (_out : list C) (out : list M) : res (list M) :=
    let L := length out in
    let n := ((L + 1) / 2)%nat in
    let N := length _out in
    if (N <? n)%nat then Raise ValueError
    else if (n =? 0)%nat && (2 <? N)%nat then Raise ValueError
    else Ok (map (fun i =>
           if (i <? n)%nat then madd M (nth i out (m0 M)) (f (nth i _out (c0 K)))
           else if (L - i <? n)%nat then madd M (nth i out (m0 M)) (f (nth (N - (L - i)) _out (c0 K)))
           else nth i out (m0 M)) (seq 0 L)).

  (** out[:] += f(_out[:n]) (_core_nb.py 610-612 and 665-667) *)
  Definition add_plain (M : CMon) (f : C -> M) (_out : list C) (out : list M) : res (list M) :=
    let n := length out in
    if (length _out <? n)%nat then Raise ValueError
    else Ok (map (fun k => madd M (nth k out (m0 M)) (f (nth k _out (c0 K)))) (seq 0 n)).

  (** The part common to _cross_corr_fft_regular and _cross_corr_fft:
      _ifft(conj(_fft(tmp1)) * _fft(tmp2)), _core_nb.py 583-588 and 641-645 *)
  Definition correlate_spectra (tmp1 tmp2 : list C) : res (list C) :=
    let* x := _fft tmp1 in
    let* y := _fft tmp2 in
    _ifft (mul_arrays (map (@conj K) x) y).

  (** tmp[0:length] = x; tmp[length:] = 0, _core_nb.py 577-582 and 600-602 *)
  Definition pad2 (x : list C) : list C := x ++ repeat (c0 K) (length x).

  (** _cross_corr_fft_regular, _core_nb.py 571-594; the two functions stand for the
      real and the complex output array *)
  Definition _cross_corr_fft_regular (x y : list C) (out : list K) : res (list K) :=
    let* o := correlate_spectra (pad2 x) (pad2 y) in add_folded (fmon K) (@cre K) o out.
  Definition _cross_corr_fft_regular_complex (x y : list C) (out : list C) : res (list C) :=
    let* o := correlate_spectra (pad2 x) (pad2 y) in add_signed (cmon K) (fun z => z) o out.

  (** _cross_corr_fft, _core_nb.py 629-651 *)
  Definition cross_irregular (x y : list C) (t1 t2 : list Z) (length : nat) : res (list C) :=
    let* tmp1 := _fill_data x t1 (repeat (c0 K) (length * 2)) in
    let* tmp2 := _fill_data y t2 (repeat (c0 K) (length * 2)) in
    correlate_spectra tmp1 tmp2.
  Definition _cross_corr_fft (x y : list C) (t1 t2 : list Z) (length : nat) (out : list K) : res (list K) :=
    let* o := cross_irregular x y t1 t2 length in add_folded (fmon K) (@cre K) o out.
  Definition _cross_corr_fft_complex (x y : list C) (t1 t2 : list Z) (length : nat) (out : list C) : res (list C) :=
    let* o := cross_irregular x y t1 t2 length in add_signed (cmon K) (fun z => z) o out.

  (** _ifft(x*conj(x)) of x = _fft(tmp), _core_nb.py 604-607 and 660-663 *)
  Definition power_spectrum (tmp : list C) : res (list C) :=
    let* x := _fft tmp in _ifft (mul_arrays x (map (@conj K) x)).

  (** _auto_corr_fft_regular, _core_nb.py 596-612 *)
  Definition _auto_corr_fft_regular (x : list C) (out : list K) : res (list K) :=
    let* o := power_spectrum (pad2 x) in add_plain (fmon K) (@cre K) o out.
  Definition _auto_corr_fft_regular_complex (x : list C) (out : list C) : res (list C) :=
    let* o := power_spectrum (pad2 x) in add_plain (cmon K) (fun z => z) o out.

  (** _auto_corr_fft, _core_nb.py 653-667 *)
  Definition auto_irregular (x : list C) (t : list Z) (length : nat) : res (list C) :=
    let* tmp := _fill_data x t (repeat (c0 K) (length * 2)) in power_spectrum tmp.
  Definition _auto_corr_fft (x : list C) (t : list Z) (length : nat) (out : list K) : res (list K) :=
    let* o := auto_irregular x t length in add_plain (fmon K) (@cre K) o out.
  Definition _auto_corr_fft_complex (x : list C) (t : list Z) (length : nat) (out : list C) : res (list C) :=
    let* o := auto_irregular x t length in add_plain (cmon K) (fun z => z) o out.

  (** The part common to _cross_sum_fft and _cross_sum_complex_fft, _core_nb.py
      672-676 and 689-693: [y] is already a spectrum *)
  Definition sum_spectra (x y : list C) (t : list Z) (length : nat) : res (list C) :=
    let* tmp1 := _fill_data x t (repeat (c0 K) (length * 2)) in
    let* x := _fft tmp1 in
    _ifft (mul_arrays (map (@conj K) x) y).

  (** _cross_sum_fft, _core_nb.py 669-682, and _cross_sum_complex_fft, 685-699.
      [toC] is the cast of the input to complex numbers; [back] is what is added
      to the output: conj for a complex output array, the real part for a real one. *)
  Section Typed.
    Variable M : CMon.
    Variable toC : M -> C.
    Variable back : C -> M.
    Definition _cross_sum_fft (x : list M) (y : list C) (t : list Z) (length : nat) (out : list M) : res (list M) :=
      let* o := sum_spectra (map toC x) y t length in add_folded M back o out.
    Definition _cross_sum_complex_fft (x : list M) (y : list C) (t : list Z) (length : nat) (out : list M)
        : res (list M) :=
      let* o := sum_spectra (map toC x) y t length in add_signed M back o out.
  End Typed.

  (** cross_correlate_fft, core.py 192-218.  numpy checks the gufunc signature
      "(n),(n),(n),(n),(),(k)->(k)". *)
  Definition run_cross_fft {B} (zero : B) (complex : bool)
      (regular : list C -> list C -> list B -> res (list B))
      (irregular : list C -> list C -> list Z -> list Z -> nat -> list B -> res (list B))
      (f1 f2 : list C) (t1 t2 : option (list Z)) (n : option nat) (aout : option (list B)) : res (list B) :=
    let* (ts, n) := _inspect_cross_arguments (length f1) (length f2) t1 t2 n
                       (option_map (@length B) aout) complex in
    let* len := _determine_full_length_cross (length f1) ts in
    let* out := _default_out zero aout n complex in
    match ts with
    | None => regular f1 f2 out
    | Some (t1, t2) =>
        if ((length f1 =? length t1) && (length f2 =? length t2))%nat%bool
        then irregular f1 f2 t1 t2 len out else Raise ValueError
    end.
  Definition cross_correlate_fft := run_cross_fft (f0 K) false _cross_corr_fft_regular _cross_corr_fft.
  Definition cross_correlate_fft_complex :=
    run_cross_fft (c0 K) true _cross_corr_fft_regular_complex _cross_corr_fft_complex.

  (** auto_correlate_fft, core.py 220-245 *)
  Definition run_auto_fft {B} (zero : B)
      (regular : list C -> list B -> res (list B))
      (irregular : list C -> list Z -> nat -> list B -> res (list B))
      (f : list C) (t : option (list Z)) (n : option nat) (aout : option (list B)) : res (list B) :=
    let* (t, n) := _inspect_auto_arguments (length f) t n (option_map (@length B) aout) in
    let* len := _determine_full_length_auto (length f) t in
    let* out := _default_out zero aout n false in
    match t with
    | None => regular f out
    | Some t => if (length f =? length t)%nat then irregular f t len out else Raise ValueError
    end.
  Definition auto_correlate_fft := run_auto_fft (f0 K) _auto_corr_fft_regular _auto_corr_fft.
  Definition auto_correlate_fft_complex :=
    run_auto_fft (c0 K) _auto_corr_fft_regular_complex _auto_corr_fft_complex.

  (** cross_sum_fft, core.py 828-859 *)
  Definition run_cross_sum_fft (G : QGrp) (toC : G -> C) (back : C -> G)
      (f : list G) (t t_other : option (list Z)) (n : option nat)
      (complex time_inversion : bool) (aout : option (list G)) : res (list G) :=
    let* (ts, n) := _inspect_cross_arguments (length f) (length f) t t_other n
                       (option_map (@length G) aout) complex in
    let* len := _determine_full_length_cross (length f) ts in
    let* out := _default_out (m0 G) aout n complex in
    match ts with
    | None => Raise ValueError
    | Some (t, t_other) =>
        let '(t, t_other) := if time_inversion then (map Z.opp t, map Z.opp t_other) else (t, t_other) in
        let* y := _fill_ones t_other (repeat (c0 K) (len * 2)) in
        let* y := _fft y in
        if (length f =? length t)%nat then
          (if complex then _cross_sum_complex_fft G toC back f y t len out
           else _cross_sum_fft G toC back f y t len out)
        else Raise ValueError
    end.
  Definition cross_sum_fft_real := run_cross_sum_fft (fgrp K) (@cofre K) (@cre K).
  Definition cross_sum_fft_complex := run_cross_sum_fft (cgrp K) (fun z => z) (@conj K).

  (** auto_sum_fft, core.py 926-957 *)
  Definition run_auto_sum_fft (G : QGrp) (toC : G -> C) (back : C -> G)
      (f : list G) (t : option (list Z)) (n : option nat) (aout : option (list G)) : res (list G) :=
    let* (t, n) := _inspect_auto_arguments (length f) t n (option_map (@length G) aout) in
    let* len := _determine_full_length_auto (length f) t in
    let* out := _default_out (m0 G) aout n false in
    let out0 := repeat (m0 G) (length out) in
    match t with
    | None => Raise ValueError
    | Some t =>
        let* y := _fill_ones t (repeat (c0 K) (len * 2)) in
        let* y := _fft y in
        if (length f =? length t)%nat then
          let* out0 := _cross_sum_fft G toC back f y t len out0 in
          Ok (add_arrays G out (halve_tail G out0))
        else Raise ValueError
    end.
  Definition auto_sum_fft_real := run_auto_sum_fft (fgrp K) (@cofre K) (@cre K).
  Definition auto_sum_fft_complex := run_auto_sum_fft (cgrp K) (fun z => z) (@conj K).
End Fft.
