(** Filters and interpolation: _core_nb.py 57-233, avg.py 8-28.

    The kernels are compiled functions that write their last argument.  [out] is the
    initial content of that array; [alias] says that the input is the same memory as the
    output, in which case every read sees the writes made before it.  Comparisons are those
    of exact numbers; NaN is modelled for decreasing and increasing only.  Complex input of
    convolve and interpolate is a pair of real inputs, as the operations are linear with
    real factors; median of complex data is defined so by the code (160-169). *)
From Verif Require Import Base Ordered.
Set Implicit Arguments.

Section Filters.
  Variable K : OFld.
  Local Notation "0" := (f0 K).
  Local Infix "+" := (fadd K).
  Local Infix "*" := (fmul K).
  Local Infix "-" := (fsub K).
  Local Infix "/" := (fdiv K).

  (** a[i] read by the kernel when the output array holds [out] *)
  Definition rd (alias : bool) (a out : list K) (i : nat) : K := nth i (if alias then out else a) 0.

  (** convolve, _core_nb.py 57-68 *)
  Definition convolve (alias : bool) (a out : list K) : res (list K) :=
    let n := length out in
    if negb (2 <? n) then Raise AssertionError
    else
      let '(out, result) := for_range 1 (n - 1) (fun i s =>
          let '(out, result) := s in
          let out := upd out (i - 1) result in
          (out, fdiv K (rd alias a out (i - 1) + fnat K 2 * rd alias a out i + rd alias a out (i + 1)) (fnat K 4)))
        (out, rd alias a out 0) in
      let out := upd out (n - 2) result in
      Ok (upd out (n - 1) (rd alias a out (n - 1))).

  Definition fmin (a b : K) : K := if flt K b a then b else a.
  Definition fmax (a b : K) : K := if flt K a b then b else a.
  (** _median, _core_nb.py 137-157 *)
  Definition median1 (l c r : K) : K :=
    if flt K c r then (if flt K c l then fmin r l else c)
    else (if flt K c l then c else fmax r l).
  Definition _median (alias : bool) (array out : list K) : res (list K) :=
    let n := length array in
    if negb (2 <? n) then Raise AssertionError
    else
      let result_out := rd alias array out 0 in
      let out := upd out (n - 1) (rd alias array out (n - 1)) in
      let '(out, result_out) := for_range 1 (n - 1) (fun i s =>
          let '(out, result_out) := s in
          let result := median1 (rd alias array out (i - 1)) (rd alias array out i) (rd alias array out (i + 1)) in
          (upd out (i - 1) result_out, result)) (out, result_out) in
      Ok (upd out (n - 2) result_out).

  (** np.sort of three values *)
  Fixpoint insert_sorted (x : K) (l : list K) : list K :=
    match l with [] => [x] | y :: l => if flt K y x then y :: insert_sorted x l else x :: y :: l end.
  Definition sorted (l : list K) : list K := fold_right insert_sorted [] l.
  (** _median_slow, _core_nb.py 193-202 *)
  Definition _median_slow (array out : list K) : res (list K) :=
    let n := length array in
    if negb (2 <? n) then Raise AssertionError
    else
      let out := for_range 1 (n - 1) (fun i out => upd out i (nth 1 (sorted (firstn 3 (skipn (i - 1) array))) 0)) out in
      let out := upd out 0%nat (nth 0 array 0) in
      Ok (upd out (n - 1) (nth (n - 1) array 0)).

  (** A call without output array: numpy allocates one, filled with [junk]. *)
  Definition fresh (junk : nat -> K) (a : list K) : list K := map junk (seq 0 (length a)).
  (** denoise, avg.py 8-28; [junk j] is the content of the j-th array allocated *)
  Fixpoint denoise_from (junk : nat -> nat -> K) (j n : nat) (x : list K) : res (list K) :=
    match n with
    | O => Ok x
    | S n =>
        let* x := _median false x (fresh (junk j) x) in
        let* x := convolve false x (fresh (junk (S j)) x) in
        denoise_from junk (S (S j)) n x
    end.
  Definition denoise (junk : nat -> nat -> K) (n : nat) (x : list K) : res (list K) := denoise_from junk 0 n x.

  (** The inner loop of interpolate, _core_nb.py 84-92: the first j with x_new <= x[j].
      Returns x0, x1 after the loop and the value written. *)
  Fixpoint interp_loop (xi : K) (x y : list K) (js : list nat) (x0 x1 : K) : K * K * option K :=
    match js with
    | [] => (x0, x1, None)
    | j :: js =>
        let x0 := nth (j - 1) x 0 in
        let x1 := nth j x 0 in
        if negb (flt K x1 xi) then
          let deltay := nth j y 0 - nth (j - 1) y 0 in
          let deltax := x1 - x0 in
          (x0, x1, Some (fdiv K ((xi - x0) * deltay) deltax + nth (j - 1) y 0))
        else interp_loop xi x y js x0 x1
    end.
  (** interpolate, _core_nb.py 79-98; [out] keeps its value where nothing is written *)
  Definition interpolate1 (x y : list K) (xi out : K) : K :=
    let '(x0, x1, w) := interp_loop xi x y (seq 1 (length x - 1)) 0 0 in
    let out := match w with Some v => v | None => out end in
    if flt K x1 xi then
      let deltay := nth (length y - 1) y 0 - nth (length y - 2) y 0 in
      let deltax := x1 - x0 in
      fdiv K ((xi - x0) * deltay) deltax + nth (length y - 2) y 0
    else out.
  Definition interpolate (x_new x y out : list K) : res (list K) :=
    if negb (2 <=? length x) then Raise AssertionError
    else Ok (map (fun p => interpolate1 x y (fst p) (snd p)) (combine x_new out)).

  (** _log_interpolate, _core_nb.py 100-126: integer times, [ln] is np.log of a positive
      integer.  x0 and x1 become logarithms if x0 >= 1 and x_new > 1. *)
  Variable ln : Z -> K.
  Variable ofZ : Z -> K.
  Definition log_nodes (log : bool) (x0 x1 : Z) : K * K :=
    if ((1 <=? x0)%Z && log)%bool then (ln x0, ln x1) else (ofZ x0, ofZ x1).
  Fixpoint log_loop (t : Z) (log : bool) (xi : K) (x : list Z) (y : list K) (js : list nat) (x0 x1 : K) : K * K * option K :=
    match js with
    | [] => (x0, x1, None)
    | j :: js =>
        let '(x0, x1) := log_nodes log (nth (j - 1) x 0%Z) (nth j x 0%Z) in
        if (t <=? nth j x 0%Z)%Z then
          let deltay := nth j y 0 - nth (j - 1) y 0 in
          let deltax := x1 - x0 in
          (x0, x1, Some (fdiv K ((xi - x0) * deltay) deltax + nth (j - 1) y 0))
        else log_loop t log xi x y js x0 x1
    end.
  Definition log_interpolate1 (x : list Z) (y : list K) (t : Z) (out : K) : K :=
    let log := (1 <? t)%Z in
    let xi := if log then ln t else ofZ t in
    let '(x0, x1, w) := log_loop t log xi x y (seq 1 (length x - 1)) 0 0 in
    let out := match w with Some v => v | None => out end in
    if flt K x1 xi then
      let deltay := nth (length y - 1) y 0 - nth (length y - 2) y 0 in
      let deltax := x1 - x0 in
      fdiv K ((xi - x0) * deltay) deltax + nth (length y - 2) y 0
    else out.
  Definition _log_interpolate (x_new x : list Z) (y out : list K) : res (list K) :=
    if negb (2 <=? length x) then Raise AssertionError
    else Ok (map (fun p => log_interpolate1 x y (fst p) (snd p)) (combine x_new out)).
End Filters.

(** decreasing and increasing, _core_nb.py 207-233; None is NaN, which compares as false *)
Section Monotone.
  Variable K : OFld.
  Definition nlt (a b : option K) : bool := match a, b with Some a, Some b => flt K a b | _, _ => false end.
  Definition isnan (a : option K) : bool := match a with None => true | _ => false end.
  Definition nrd (alias : bool) (a out : list (option K)) (i : nat) : option K := nth i (if alias then out else a) None.
  Definition decreasing (alias : bool) (array out : list (option K)) : list (option K) :=
    for_range 0 (length array) (fun i out =>
      if i =? 0 then upd out 0 (nrd alias array out 0)
      else if (nlt (nrd alias array out i) (nth (i - 1) out None) || isnan (nth (i - 1) out None))%bool
      then upd out i (nrd alias array out i)
      else upd out i (nth (i - 1) out None)) out.
  Definition increasing (alias : bool) (array out : list (option K)) : list (option K) :=
    for_range 1 (length array) (fun i out =>
      if i =? 0 then upd out 0 (nrd alias array out 0)
      else if (nlt (nth (i - 1) out None) (nrd alias array out i) || isnan (nth (i - 1) out None))%bool
      then upd out i (nrd alias array out i)
      else upd out i (nth (i - 1) out None)) out.
End Monotone.
