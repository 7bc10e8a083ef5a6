(** Model of the multi-pixel kernels of cddm/_core_nb.py.  A video is a list of
    frames, a frame a list of pixels (the trailing axes are flattened into one);
    the output of the irregular kernels is a list of rows, one row of pixels per
    delay.  All frames have the same number of pixels because they are rows of
    one numpy array; this is [rect] below. *)
From Verif Require Import Base Kernels CoreModel.
Set Implicit Arguments.

Definition rect {A} (w : nat) (m : list (list A)) : Prop := Forall (fun row => length row = w) m.

(** Time series of pixel [p]. *)
Definition pixel {A} (d : A) (p : nat) (m : list (list A)) : list A := map (fun row => nth p row d) m.

(** [for j in range(n): out[j] = out[j] + g(j)], the loop of all _add_vec functions,
    _core_nb.py 240-267, 416-424 *)
Definition add_vec (M : CMon) (n : nat) (g : nat -> M) (out : list M) : list M :=
  for_range 0 n (fun j out => add_at M out j (g j)) out.

(** In-place update of row m of a two-dimensional array. *)
Definition at_row {A} (out : list (list A)) (m : nat) (f : list A -> list A) : list (list A) :=
  upd out m (f (nth m out [])).

Section VecKernels.
  Variable K : Fld.
  Notation C := (Cx K).
  Notation Km := (fmon K).
  Notation Cm := (cmon K).
  Notation z0 := (c0 K).

  (** _cross_corr_add_vec, _core_nb.py 240-247 *)
  Definition _cross_corr_add_vec (xv yv : list C) : list K -> list K :=
    add_vec Km (length xv) (fun j =>
      fadd K (fmul K (cre (nth j xv z0)) (cre (nth j yv z0)))
             (fmul K (cim (nth j xv z0)) (cim (nth j yv z0)))).
  (** _cross_corr_complex_add_vec, _core_nb.py 250-257 *)
  Definition _cross_corr_complex_add_vec (xv yv : list C) : list C -> list C :=
    add_vec Cm (length xv) (fun j => cmul (nth j yv z0) (conj (nth j xv z0))).
  (** _cross_diff_add_vec, _core_nb.py 416-424 *)
  Definition _cross_diff_add_vec (xv yv : list C) : list K -> list K :=
    add_vec Km (length xv) (fun j =>
      let tmp := csub (nth j xv z0) (nth j yv z0) in
      fadd K (fmul K (cre tmp) (cre tmp)) (fmul K (cim tmp) (cim tmp))).

  (** _cross_corr_vec, _core_nb.py 285-290 *)
  Definition _cross_corr_vec (f1 f2 : list (list C)) (t1 t2 : list Z) (out : list (list K)) : list (list K) :=
    for_range 0 (length f1) (fun i out =>
      for_range 0 (length f2) (fun j out =>
        let m := Z.abs (nth j t2 0 - nth i t1 0)%Z in
        if (m <? Z.of_nat (length out))%Z
        then at_row out (Z.to_nat m) (_cross_corr_add_vec (nth i f1 []) (nth j f2 [])) else out) out) out.

  (** _cross_corr_complex_vec, _core_nb.py 293-298 *)
  Definition _cross_corr_complex_vec (f1 f2 : list (list C)) (t1 t2 : list Z) (out : list (list C)) : list (list C) :=
    for_range 0 (length f1) (fun i out =>
      for_range 0 (length f2) (fun j out =>
        let m := (nth j t2 0 - nth i t1 0)%Z in
        if (Z.abs m <? (Z.of_nat (length out) + 1) / 2)%Z
        then at_row out (wrap_pos (length out) m) (_cross_corr_complex_add_vec (nth i f1 []) (nth j f2 []))
        else out) out) out.

  (** _auto_corr_vec, _core_nb.py 369-375 *)
  Definition _auto_corr_vec (f : list (list C)) (t : list Z) (out : list (list K)) : list (list K) :=
    for_range 0 (length f) (fun i out =>
      for_range i (length f) (fun j out =>
        let m := Z.abs (nth j t 0 - nth i t 0)%Z in
        if (m <? Z.of_nat (length out))%Z
        then at_row out (Z.to_nat m) (_cross_corr_add_vec (nth i f []) (nth j f [])) else out) out) out.

  (** _auto_corr_complex_vec, _core_nb.py 378-389 *)
  Definition _auto_corr_complex_vec (f : list (list C)) (t : list Z) (out : list (list C)) : list (list C) :=
    for_range 0 (length f) (fun i out =>
      for_range i (length f) (fun j out =>
        let m := (nth j t 0 - nth i t 0)%Z in
        if (0 <=? m)%Z then
          (if (m <? Z.of_nat (length out))%Z
           then at_row out (Z.to_nat m) (_cross_corr_complex_add_vec (nth i f []) (nth j f [])) else out)
        else
          (let m := Z.abs m in
           if (m <? Z.of_nat (length out))%Z
           then at_row out (Z.to_nat m) (_cross_corr_complex_add_vec (nth j f []) (nth i f [])) else out)) out) out.

  (** _cross_diff_vec, _core_nb.py 427-432 *)
  Definition _cross_diff_vec (f1 f2 : list (list C)) (t1 t2 : list Z) (out : list (list K)) : list (list K) :=
    for_range 0 (length f1) (fun i out =>
      for_range 0 (length f2) (fun j out =>
        let m := Z.abs (nth j t2 0 - nth i t1 0)%Z in
        if (m <? Z.of_nat (length out))%Z
        then at_row out (Z.to_nat m) (_cross_diff_add_vec (nth j f2 []) (nth i f1 [])) else out) out) out.

  (** _auto_diff_vec, _core_nb.py 462-467 *)
  Definition _auto_diff_vec (f : list (list C)) (t : list Z) (out : list (list K)) : list (list K) :=
    for_range 0 (length f) (fun i out =>
      for_range i (length f) (fun j out =>
        let m := Z.abs (nth j t 0 - nth i t 0)%Z in
        if (m <? Z.of_nat (length out))%Z
        then at_row out (Z.to_nat m) (_cross_diff_add_vec (nth j f []) (nth i f [])) else out) out) out.
End VecKernels.

Section VecSums.
  Variable G : QGrp.
  (** _add_vec, _core_nb.py 260-262 *)
  Definition _add_vec (x : list G) : list G -> list G :=
    add_vec G (length x) (fun j => nth j x (m0 G)).
  (** _cross_sum_vec, _core_nb.py 487-492 *)
  Definition _cross_sum_vec (f : list (list G)) (t1 t2 : list Z) (out : list (list G)) : list (list G) :=
    for_range 0 (length t1) (fun i out =>
      for_range 0 (length t2) (fun j out =>
        let m := Z.abs (nth j t2 0 - nth i t1 0)%Z in
        if (m <? Z.of_nat (length out))%Z
        then at_row out (Z.to_nat m) (_add_vec (nth i f [])) else out) out) out.
  (** _cross_sum_complex_vec, _core_nb.py 495-500 *)
  Definition _cross_sum_complex_vec (f : list (list G)) (t1 t2 : list Z) (out : list (list G)) : list (list G) :=
    for_range 0 (length t1) (fun i out =>
      for_range 0 (length t2) (fun j out =>
        let m := (nth j t2 0 - nth i t1 0)%Z in
        if (Z.abs m <? (Z.of_nat (length out) + 1) / 2)%Z
        then at_row out (wrap_pos (length out) m) (_add_vec (nth i f [])) else out) out) out.
End VecSums.

(* ------------------------------------------------------------------ *)
(** * Broadcasting of the one-dimensional kernels *)

(** numpy calls a one-dimensional gufunc once per pixel (the aligned, regular
    branch, core.py 453-454 and the corresponding lines of the other functions). *)
Fixpoint map_res {A B} (f : A -> res B) (l : list A) : res (list B) :=
  match l with
  | [] => Ok []
  | x :: l => let* y := f x in let* ys := map_res f l in Ok (y :: ys)
  end.

(** Rows (one per delay) from the per-pixel results. *)
Definition rows_of {B} (d : B) (n : nat) (cols : list (list B)) : list (list B) :=
  map (fun k => map (fun c => nth k c d) cols) (seq 0 n).

Definition broadcast2 {A B} (da : A) (db : B) (w : nat)
    (kernel : list A -> list A -> list B -> res (list B))
    (f1 f2 : list (list A)) (out : list (list B)) : res (list (list B)) :=
  let* cols := map_res (fun p => kernel (pixel da p f1) (pixel da p f2) (pixel db p out)) (seq 0 w) in
  Ok (rows_of db (length out) cols).

Definition broadcast1 {A B} (da : A) (db : B) (w : nat)
    (kernel : list A -> list B -> res (list B))
    (f : list (list A)) (out : list (list B)) : res (list (list B)) :=
  let* cols := map_res (fun p => kernel (pixel da p f) (pixel db p out)) (seq 0 w) in
  Ok (rows_of db (length out) cols).

Section FramesApi.
  Variable K : Fld.
  Variable w : nat.   (* number of pixels per frame *)
  Notation C := (Cx K).

  (** cross_correlate on frames, core.py 436-466.  The final _transpose_data
      (core.py 466, which only moves the delay axis) is left out: the result is
      given as rows, one per delay. *)
  Definition cross_correlate_frames :=
    run_cross (repeat (f0 K) w) false (broadcast2 (c0 K) (f0 K) w (@_cross_corr_regular K)) (@_cross_corr_vec K).
  Definition cross_correlate_complex_frames :=
    run_cross (repeat (c0 K) w) true (broadcast2 (c0 K) (c0 K) w (@_cross_corr_complex_regular K))
      (@_cross_corr_complex_vec K).
  (** cross_difference on frames, core.py 508-535 *)
  Definition cross_difference_frames :=
    run_cross (repeat (f0 K) w) false (broadcast2 (c0 K) (f0 K) w (@_cross_diff_regular K)) (@_cross_diff_vec K).
  (** auto_correlate on frames, core.py 578-607 *)
  Definition auto_correlate_frames :=
    run_auto (repeat (f0 K) w) (broadcast1 (c0 K) (f0 K) w (@_auto_corr_regular K)) (@_auto_corr_vec K).
  Definition auto_correlate_complex_frames :=
    run_auto (repeat (c0 K) w) (broadcast1 (c0 K) (c0 K) w (@_auto_corr_complex_regular K))
      (@_auto_corr_complex_vec K).
  (** auto_difference on frames, core.py 644-667 *)
  Definition auto_difference_frames :=
    run_auto (repeat (f0 K) w) (broadcast1 (c0 K) (f0 K) w (@_auto_diff_regular K)) (@_auto_diff_vec K).
End FramesApi.
