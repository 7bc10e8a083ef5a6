(** Model of the correlation kernels of cddm/_core_nb.py (one pixel, and rows of
    pixels for the [_vec] kernels).  Exact arithmetic instead of floats; [out] is
    both the input buffer and the result, because every caller passes the same
    array as [dummy] and [out].  Loop reads such as x[i], t1[i] are written
    [nth i x _]: the gufunc signatures checked by numpy (modelled in CoreModel.v)
    guarantee that i is in range; where the code can really read out of range
    (the [_regular] kernels) the model raises [OutOfBounds] instead. *)
From Verif Require Import Base.
Set Implicit Arguments.

(** A commutative group with halving: the arithmetic needed by the sum kernels,
    which numba compiles for float and for complex arrays. *)
Record QGrp := {
  amon :> CMon;
  aopp : amon -> amon;
  ahalf : amon -> amon;
  aopp_law : forall a, madd amon a (aopp a) = m0 amon;
  ahalf_double : forall a, ahalf (madd amon a a) = a;
  ahalf_add : forall a b, ahalf (madd amon a b) = madd amon (ahalf a) (ahalf b)
}.
Definition asub (G : QGrp) (a b : G) : G := madd G a (aopp G b).

Section Instances.
  Variable K : Fld.
  Add Field Kfield : (flaw K).

  Lemma two_neq0 : fadd K (f1 K) (f1 K) <> f0 K.
  Proof.
    replace (fadd K (f1 K) (f1 K)) with (fnat K 2).
    - apply fnat_neq0; discriminate.
    - unfold fnat; simpl; ring.
  Qed.
  Definition ftwo : K := fadd K (f1 K) (f1 K).
  Definition fhalf (a : K) : K := fdiv K a ftwo.

  Definition fgrp : QGrp.
  Proof.
    refine {| amon := fmon K; aopp := fopp K; ahalf := fhalf |}; simpl; intros; unfold fhalf, ftwo.
    - ring.
    - field. apply two_neq0.
    - field. apply two_neq0.
  Defined.

  Definition cgrp : QGrp.
  Proof.
    refine {| amon := cmon K; aopp := @copp K;
              ahalf := fun z => (fhalf (cre z), fhalf (cim z)) |};
      simpl; intros; unfold fhalf, ftwo, cadd, copp, c0, cre, cim; simpl.
    - f_equal; ring.
    - destruct a; simpl; f_equal; field; apply two_neq0.
    - f_equal; field; apply two_neq0.
  Defined.
End Instances.
Arguments fhalf {K} a.
Arguments ftwo {K}.

(* ------------------------------------------------------------------ *)
(** ** Writing at a delay *)

(** [m = abs(d); if m < out.shape[0]: out[m] += v]
    _core_nb.py 305-308, 395-398, 440-444, 480-484, 506-508, 710-712, 822-824 *)
Definition scatter_abs (M : CMon) (out : list M) (d : Z) (v : M) : list M :=
  let m := Z.abs d in
  if (m <? Z.of_nat (length out))%Z then add_at M out (Z.to_nat m) v else out.

(** Position of the Python index [m] in an array of length [len]. *)
Definition wrap_pos (len : nat) (m : Z) : nat :=
  Z.to_nat (if (m <? 0)%Z then m + Z.of_nat len else m)%Z.

(** [m = d; if abs(m) < (out.shape[0]+1)//2: out[m] += v]
    _core_nb.py 314-317, 498-500, 514-516 *)
Definition scatter_signed (M : CMon) (out : list M) (d : Z) (v : M) : list M :=
  if (Z.abs d <? (Z.of_nat (length out) + 1) / 2)%Z
  then add_at M out (wrap_pos (length out) d) v else out.

(** The same with the guard [abs(m) < (len(n)+1)/2], a float division, i.e.
    2*abs(m) < len(n)+1.  _core_nb.py 718-720 *)
Definition scatter_signed_half (M : CMon) (out : list M) (d : Z) (v : M) : list M :=
  if (2 * Z.abs d <? Z.of_nat (length out) + 1)%Z
  then add_at M out (wrap_pos (length out) d) v else out.

Section Kernels.
  Variable K : Fld.
  Notation C := (Cx K).
  Notation Km := (fmon K).
  Notation Cm := (cmon K).
  Notation z0 := (c0 K).

  (* ---------------------------------------------------------------- *)
  (** ** Irregular-spaced kernels *)

  (** _cross_corr, _core_nb.py 301-308 *)
  Definition _cross_corr (x y : list C) (t1 t2 : list Z) (out : list K) : list K :=
    for_range 0 (length x) (fun i out =>
      for_range 0 (length y) (fun j out =>
        scatter_abs Km out (nth j t2 0 - nth i t1 0)%Z
          (fadd K (fmul K (cre (nth i x z0)) (cre (nth j y z0)))
                  (fmul K (cim (nth i x z0)) (cim (nth j y z0))))) out) out.

  (** _cross_corr_complex, _core_nb.py 311-317 *)
  Definition _cross_corr_complex (x y : list C) (t1 t2 : list Z) (out : list C) : list C :=
    for_range 0 (length x) (fun i out =>
      for_range 0 (length y) (fun j out =>
        scatter_signed Cm out (nth j t2 0 - nth i t1 0)%Z
          (cmul (conj (nth i x z0)) (nth j y z0))) out) out.

  (** _auto_corr, _core_nb.py 392-398 *)
  Definition _auto_corr (f : list C) (t : list Z) (out : list K) : list K :=
    for_range 0 (length f) (fun i out =>
      for_range i (length f) (fun j out =>
        scatter_abs Km out (nth j t 0 - nth i t 0)%Z
          (fadd K (fmul K (cre (nth i f z0)) (cre (nth j f z0)))
                  (fmul K (cim (nth i f z0)) (cim (nth j f z0))))) out) out.

  (** _auto_corr_complex, _core_nb.py 401-413 *)
  Definition _auto_corr_complex (f : list C) (t : list Z) (out : list C) : list C :=
    for_range 0 (length f) (fun i out =>
      for_range i (length f) (fun j out =>
        let m := (nth j t 0 - nth i t 0)%Z in
        if (0 <=? m)%Z then
          (if (m <? Z.of_nat (length out))%Z
           then add_at Cm out (Z.to_nat m) (cmul (conj (nth i f z0)) (nth j f z0)) else out)
        else
          (let m := Z.abs m in
           if (m <? Z.of_nat (length out))%Z
           then add_at Cm out (Z.to_nat m) (cmul (nth i f z0) (conj (nth j f z0))) else out)) out) out.

  (** _cross_diff, _core_nb.py 436-444 *)
  Definition _cross_diff (x y : list C) (t1 t2 : list Z) (out : list K) : list K :=
    for_range 0 (length x) (fun i out =>
      for_range 0 (length y) (fun j out =>
        let tmp := csub (nth j y z0) (nth i x z0) in
        scatter_abs Km out (nth j t2 0 - nth i t1 0)%Z
          (fadd K (fmul K (cre tmp) (cre tmp)) (fmul K (cim tmp) (cim tmp)))) out) out.

  (** _auto_diff, _core_nb.py 477-484 *)
  Definition _auto_diff (f : list C) (t : list Z) (out : list K) : list K :=
    for_range 0 (length f) (fun i out =>
      for_range i (length f) (fun j out =>
        let tmp := csub (nth j f z0) (nth i f z0) in
        scatter_abs Km out (nth j t 0 - nth i t 0)%Z
          (fadd K (fmul K (cre tmp) (cre tmp)) (fmul K (cim tmp) (cim tmp)))) out) out.

  (* ---------------------------------------------------------------- *)
  (** ** Regular-spaced kernels *)

  (** _cross_corr_add, _core_nb.py 320-327; [out] is the single cell out[0].
      Reading yv[j] past its end is undefined behaviour. *)
  Definition _cross_corr_add (xv yv : list C) (acc : K) : res K :=
    for_range_res 0 (length xv) (fun j acc =>
      match nth_error xv j, nth_error yv j with
      | Some x, Some y => Ok (fadd K acc (fadd K (fmul K (cre x) (cre y)) (fmul K (cim x) (cim y))))
      | _, _ => Raise OutOfBounds
      end) acc.

  (** _cross_corr_complex_add, _core_nb.py 330-337 *)
  Definition _cross_corr_complex_add (xv yv : list C) (acc : C) : res C :=
    for_range_res 0 (length xv) (fun j acc =>
      match nth_error xv j, nth_error yv j with
      | Some x, Some y => Ok (cadd acc (cmul y (conj x)))
      | _, _ => Raise OutOfBounds
      end) acc.

  (** _cross_diff_add, _core_nb.py 447-451 *)
  Definition _cross_diff_add (xv yv : list C) (acc : K) : res K :=
    for_range_res 0 (length xv) (fun j acc =>
      match nth_error xv j, nth_error yv j with
      | Some x, Some y => let tmp := csub x y in
          Ok (fadd K acc (fadd K (fmul K (cre tmp) (cre tmp)) (fmul K (cim tmp) (cim tmp))))
      | _, _ => Raise OutOfBounds
      end) acc.

  (** [_add(..., out[i:i+1])]: apply [f] to the cell [i] of [out]. *)
  Definition at_cell {A} (d : A) (out : list A) (i : nat) (f : A -> res A) : res (list A) :=
    let* v := f (nth i out d) in Ok (upd out i v).

  (** _cross_corr_regular, _core_nb.py 340-345 *)
  Definition _cross_corr_regular (x y : list C) (out : list K) : res (list K) :=
    for_range_res 0 (length out) (fun i out =>
      let n := (Z.of_nat (length x) - Z.of_nat i)%Z in
      let* out := at_cell (f0 K) out i
                    (_cross_corr_add (py_slice x 0 n) (py_slice_from y (Z.of_nat i))) in
      if (0 <? i)%nat then
        at_cell (f0 K) out i (_cross_corr_add (py_slice y 0 n) (py_slice_from x (Z.of_nat i)))
      else Ok out) out.

  (** _cross_corr_complex_regular, _core_nb.py 348-354 *)
  Definition _cross_corr_complex_regular (x y : list C) (out : list C) : res (list C) :=
    for_range_res 0 ((length out + 1) / 2) (fun i out =>
      let n := (Z.of_nat (length x) - Z.of_nat i)%Z in
      let* out := at_cell z0 out i
                    (_cross_corr_complex_add (py_slice x 0 n) (py_slice_from y (Z.of_nat i))) in
      if (0 <? i)%nat then
        at_cell z0 out (length out - i)
          (_cross_corr_complex_add (py_slice_from x (Z.of_nat i)) (py_slice y 0 n))
      else Ok out) out.

  (** _auto_corr_regular, _core_nb.py 357-360 *)
  Definition _auto_corr_regular (x : list C) (out : list K) : res (list K) :=
    for_range_res 0 (length out) (fun i out =>
      let n := (Z.of_nat (length x) - Z.of_nat i)%Z in
      at_cell (f0 K) out i (_cross_corr_add (py_slice_from x (Z.of_nat i)) (py_slice x 0 n))) out.

  (** _auto_corr_complex_regular, _core_nb.py 363-366 *)
  Definition _auto_corr_complex_regular (x : list C) (out : list C) : res (list C) :=
    for_range_res 0 (length out) (fun i out =>
      let n := (Z.of_nat (length x) - Z.of_nat i)%Z in
      at_cell z0 out i (_cross_corr_complex_add (py_slice x 0 n) (py_slice_from x (Z.of_nat i)))) out.

  (** _cross_diff_regular, _core_nb.py 454-459 *)
  Definition _cross_diff_regular (x y : list C) (out : list K) : res (list K) :=
    for_range_res 0 (length out) (fun i out =>
      let n := (Z.of_nat (length x) - Z.of_nat i)%Z in
      let* out := at_cell (f0 K) out i
                    (_cross_diff_add (py_slice_from y (Z.of_nat i)) (py_slice x 0 n)) in
      if (0 <? i)%nat then
        at_cell (f0 K) out i (_cross_diff_add (py_slice y 0 n) (py_slice_from x (Z.of_nat i)))
      else Ok out) out.

  (** _auto_diff_regular, _core_nb.py 471-474 *)
  Definition _auto_diff_regular (x : list C) (out : list K) : res (list K) :=
    for_range_res 0 (length out) (fun i out =>
      let n := (Z.of_nat (length x) - Z.of_nat i)%Z in
      at_cell (f0 K) out i (_cross_diff_add (py_slice_from x (Z.of_nat i)) (py_slice x 0 n))) out.
End Kernels.

(* ------------------------------------------------------------------ *)
(** ** Sum kernels (compiled for float and complex data) *)

Section SumKernels.
  Variable G : QGrp.

  (** _cross_sum, _core_nb.py 503-508 *)
  Definition _cross_sum (f : list G) (t1 t2 : list Z) (out : list G) : list G :=
    for_range 0 (length t1) (fun i out =>
      for_range 0 (length t2) (fun j out =>
        scatter_abs G out (nth j t2 0 - nth i t1 0)%Z (nth i f (m0 G))) out) out.

  (** _cross_sum_complex, _core_nb.py 511-516 *)
  Definition _cross_sum_complex (f : list G) (t1 t2 : list Z) (out : list G) : list G :=
    for_range 0 (length t1) (fun i out =>
      for_range 0 (length t2) (fun j out =>
        scatter_signed G out (nth j t2 0 - nth i t1 0)%Z (nth i f (m0 G))) out) out.

  (** x[i] in compiled code; reading outside is undefined behaviour except that a
      negative index in range wraps. *)
  Definition read (x : list G) (i : Z) : res G :=
    match py_index (length x) i with
    | Some k => Ok (nth k x (m0 G))
    | None => Raise OutOfBounds
    end.

  (** The sum loop of lines 524-527: tmp = 0; for j in range(len(x)): tmp += x[j] *)
  Definition total (x : list G) : G :=
    for_range 0 (length x) (fun j tmp => madd G tmp (nth j x (m0 G))) (m0 G).

  (** _cross_sum_regular, _core_nb.py 520-532; the loop state is (prev, out).
      [tmp*2] is written tmp+tmp. *)
  Definition _cross_sum_regular (x : list G) (out : list G) : res (list G) :=
    let* st := for_range_res 0 (length out) (fun i st =>
      let '(prev, out) := st in
      let n := (Z.of_nat (length x) - Z.of_nat i)%Z in
      if (i =? 0)%nat then
        let tmp := total x in Ok (madd G tmp tmp, add_at G out 0 tmp)
      else
        let* a := read x (Z.of_nat i - 1) in
        let* b := read x n in
        let prev := asub G (asub G prev a) b in
        Ok (prev, add_at G out i prev)) (m0 G, out) in
    Ok (snd st).

  (** _cross_sum_complex_regular, _core_nb.py 553-568 *)
  Definition _cross_sum_complex_regular (x : list G) (out : list G) : res (list G) :=
    let* st := for_range_res 0 ((length out + 1) / 2) (fun i st =>
      let '(prev1, prev2, out) := st in
      let n := (Z.of_nat (length x) - Z.of_nat i)%Z in
      if (i =? 0)%nat then
        let tmp := total x in Ok (tmp, tmp, add_at G out 0 tmp)
      else
        let* a := read x (Z.of_nat i - 1) in
        let* b := read x n in
        let prev1 := asub G prev1 a in
        let prev2 := asub G prev2 b in
        let out := add_at G out i prev2 in
        Ok (prev1, prev2, add_at G out (length out - i) prev1)) (m0 G, m0 G, out) in
    Ok (snd st).

  (** _cross_sum_complex_regular_inverted, _core_nb.py 535-550 *)
  Definition _cross_sum_complex_regular_inverted (x : list G) (out : list G) : res (list G) :=
    let* st := for_range_res 0 ((length out + 1) / 2) (fun i st =>
      let '(prev1, prev2, out) := st in
      let n := (Z.of_nat (length x) - Z.of_nat i)%Z in
      if (i =? 0)%nat then
        let tmp := total x in Ok (tmp, tmp, add_at G out 0 tmp)
      else
        let* a := read x (Z.of_nat i - 1) in
        let* b := read x n in
        let prev1 := asub G prev1 a in
        let prev2 := asub G prev2 b in
        let out := add_at G out i prev1 in
        Ok (prev1, prev2, add_at G out (length out - i) prev2)) (m0 G, m0 G, out) in
    Ok (snd st).
End SumKernels.

(* ------------------------------------------------------------------ *)
(** ** Count kernels *)

(** _add_count_cross, _core_nb.py 707-712 (counts as natural numbers; int
    overflow is not modelled) *)
Definition _add_count_cross (t1 t2 : list Z) (n : list nat) : list nat :=
  for_range 0 (length t1) (fun ii n =>
    for_range 0 (length t2) (fun jj n =>
      scatter_abs natmon n (nth jj t2 0 - nth ii t1 0)%Z 1%nat) n) n.

(** _add_count_cross_complex, _core_nb.py 715-720 *)
Definition _add_count_cross_complex (t1 t2 : list Z) (n : list nat) : list nat :=
  for_range 0 (length t1) (fun ii n =>
    for_range 0 (length t2) (fun jj n =>
      scatter_signed_half natmon n (nth jj t2 0 - nth ii t1 0)%Z 1%nat) n) n.

(** _add_count_auto, _core_nb.py 819-824 *)
Definition _add_count_auto (t : list Z) (n : list nat) : list nat :=
  for_range 0 (length t) (fun ii n =>
    for_range ii (length t) (fun jj n =>
      scatter_abs natmon n (nth ii t 0 - nth jj t 0)%Z 1%nat) n) n.
