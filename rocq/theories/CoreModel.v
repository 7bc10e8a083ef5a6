(** Model of the argument handling of cddm/core.py for one time series (a 1-D
    array, or one pixel of a larger array; see VecModel.v for the row kernels).
    Simplifications, everywhere in this file: [axis] handling and dtype
    conversions are left out (the element type of the Coq list plays the role of
    the dtype), [n] is a natural number, int64 overflow is ignored. *)
From Verif Require Import Base Kernels.
Set Implicit Arguments.

(** _determine_full_length_cross, core.py 128-138; [L] is shape[axis]. *)
Definition _determine_full_length_cross (L : nat) (ts : option (list Z * list Z)) : res nat :=
  match ts with
  | None => Ok L
  | Some (t1, t2) =>
      let* t1min := zmin_list t1 in let* t1max := zmax_list t1 in
      let* t2min := zmin_list t2 in let* t2max := zmax_list t2 in
      Ok (Z.to_nat (1 + Z.max (t2max - t1min) (t1max - t2min)))%Z
  end.

(** _determine_full_length_auto, core.py 117-126 *)
Definition _determine_full_length_auto (L : nat) (t : option (list Z)) : res nat :=
  match t with
  | None => Ok L
  | Some t =>
      let* tmin := zmin_list t in let* tmax := zmax_list t in
      Ok (Z.to_nat (1 + tmax - tmin))%Z
  end.

(** Subtraction of the common minimum, core.py 109-112 *)
Definition _shift_cross (t1 t2 : list Z) : res (list Z * list Z) :=
  let* t1min := zmin_list t1 in let* t2min := zmin_list t2 in
  let m := Z.min t1min t2min in
  Ok (map (fun t => t - m)%Z t1, map (fun t => t - m)%Z t2).

(** _inspect_cross_arguments, core.py 75-114: returns the shifted times and n.
    [aout_len] is aout.shape[-1] if aout was given. *)
Definition _inspect_cross_arguments (len1 len2 : nat) (t1 t2 : option (list Z))
    (n : option nat) (aout_len : option nat) (aout_full_size : bool)
    : res (option (list Z * list Z) * nat) :=
  let* ts := match t1, t2 with
             | None, Some _ | Some _, None => Raise ValueError
             | None, None => Ok None
             | Some t1, Some t2 => Ok (Some (t1, t2))
             end in
  if negb (len1 =? len2)%nat then Raise ValueError else
  let* n := match n with
            | Some n => Ok n
            | None => match aout_len with
                      | Some l => Ok (if aout_full_size then (l + 1) / 2 else l)%nat
                      | None => _determine_full_length_cross len1 ts
                      end
            end in
  let* ts := match ts with
             | None => Ok None
             | Some (t1, t2) => let* s := _shift_cross t1 t2 in Ok (Some s)
             end in
  Ok (ts, n).

(** _inspect_auto_arguments, core.py 141-169 *)
Definition _inspect_auto_arguments (len : nat) (t : option (list Z)) (n : option nat)
    (aout_len : option nat) : res (option (list Z) * nat) :=
  let* n := match n with
            | Some n => Ok n
            | None => match aout_len with
                      | Some l => Ok l
                      | None => _determine_full_length_auto len t
                      end
            end in
  let* t := match t with
            | None => Ok None
            | Some t => let* m := zmin_list t in Ok (Some (map (fun x => x - m)%Z t))
            end in
  Ok (t, n).

(** _default_out, core.py 174-190.  np.zeros with a negative size (complex, n=0)
    is a ValueError.  A given output array of a 1-D problem always has a
    matching shape. *)
Definition _default_out {A} (zero : A) (aout : option (list A)) (n : nat) (complex : bool)
    : res (list A) :=
  match aout with
  | Some out => Ok out
  | None => if complex
            then (if (n =? 0)%nat then Raise ValueError else Ok (repeat zero (2 * n - 1)))
            else Ok (repeat zero n)
  end.

(** The common body of cross_correlate (core.py 436-466) and cross_difference
    (core.py 508-535).  [aligned] is the result of _is_aligned (core.py 247-252),
    which decides between the two kernels when no times are given.  numpy checks
    the gufunc signature "(m),(n),(m),(n),(k)->(k)": values and times must have
    the same length, otherwise ValueError. *)
Definition run_cross {A B} (zero : B) (complex : bool)
    (kernel_regular : list A -> list A -> list B -> res (list B))
    (kernel : list A -> list A -> list Z -> list Z -> list B -> list B)
    (f1 f2 : list A) (t1 t2 : option (list Z)) (n : option nat) (aligned : bool)
    (aout : option (list B)) : res (list B) :=
  let* (ts, n) := _inspect_cross_arguments (length f1) (length f2) t1 t2 n
                     (option_map (@length B) aout) complex in
  let* out := _default_out zero aout n complex in
  match ts with
  | None => if aligned then kernel_regular f1 f2 out
            else let t := arange (length f1) in Ok (kernel f1 f2 t t out)
  | Some (t1, t2) =>
      if ((length f1 =? length t1) && (length f2 =? length t2))%nat%bool
      then Ok (kernel f1 f2 t1 t2 out) else Raise ValueError
  end.

(** The common body of auto_correlate (core.py 578-607) and auto_difference
    (core.py 644-667). *)
Definition run_auto {A B} (zero : B)
    (kernel_regular : list A -> list B -> res (list B))
    (kernel : list A -> list Z -> list B -> list B)
    (f : list A) (t : option (list Z)) (n : option nat) (aligned : bool)
    (aout : option (list B)) : res (list B) :=
  let* (t, n) := _inspect_auto_arguments (length f) t n (option_map (@length B) aout) in
  let* out := _default_out zero aout n false in
  match t with
  | None => if aligned then kernel_regular f out else Ok (kernel f (arange (length f)) out)
  | Some t => if (length f =? length t)%nat then Ok (kernel f t out) else Raise ValueError
  end.

Section Api.
  Variable K : Fld.
  Notation C := (Cx K).

  (** cross_correlate(..., complex=False), core.py 390-466 *)
  Definition cross_correlate := run_cross (f0 K) false (@_cross_corr_regular K) (@_cross_corr K).
  (** cross_correlate(..., complex=True), core.py 390-466 *)
  Definition cross_correlate_complex :=
    run_cross (c0 K) true (@_cross_corr_complex_regular K) (@_cross_corr_complex K).
  (** cross_difference, core.py 468-535 *)
  Definition cross_difference := run_cross (f0 K) false (@_cross_diff_regular K) (@_cross_diff K).
  (** auto_correlate(..., complex=False), core.py 537-607 *)
  Definition auto_correlate := run_auto (f0 K) (@_auto_corr_regular K) (@_auto_corr K).
  (** auto_correlate(..., complex=True), core.py 537-607; note that the output
      has length n, not 2n-1 (no [complex] argument to _default_out, line 595) *)
  Definition auto_correlate_complex :=
    run_auto (c0 K) (@_auto_corr_complex_regular K) (@_auto_corr_complex K).
  (** auto_difference, core.py 609-667 *)
  Definition auto_difference := run_auto (f0 K) (@_auto_diff_regular K) (@_auto_diff K).
End Api.

Section SumApi.
  Variable G : QGrp.

  (** cross_sum, core.py 759-826.  [inspect] is called with f twice.  The gufunc
      signature "(l),(l),(n),(m)->(m)" ties the length of t to that of f. *)
  Definition cross_sum (f : list G) (t t_other : option (list Z)) (n : option nat)
      (complex time_inversion : bool) (aout : option (list G)) : res (list G) :=
    let* (ts, n) := _inspect_cross_arguments (length f) (length f) t t_other n
                       (option_map (@length G) aout) complex in
    let* out := _default_out (m0 G) aout n complex in
    match ts with
    | None =>
        if complex then
          (if time_inversion then _cross_sum_complex_regular_inverted G f out
           else _cross_sum_complex_regular G f out)
        else _cross_sum_regular G f out
    | Some (t, t_other) =>
        let '(t, t_other) := if time_inversion then (map Z.opp t, map Z.opp t_other) else (t, t_other) in
        if (length f =? length t)%nat then
          Ok (if complex then _cross_sum_complex G f t t_other out else _cross_sum G f t t_other out)
        else Raise ValueError
    end.

  (** Division of all cells but the first by two, core.py 921 and 955 *)
  Definition halve_tail (out : list G) : list G :=
    match out with [] => [] | x :: l => x :: map (ahalf G) l end.

  (** Elementwise sum [out += out0], core.py 923 *)
  Definition add_arrays (a b : list G) : list G := map (fun p => madd G (fst p) (snd p)) (combine a b).

  (** auto_sum, core.py 862-924 *)
  Definition auto_sum (f : list G) (t : option (list Z)) (n : option nat)
      (aout : option (list G)) : res (list G) :=
    let* (t, n) := _inspect_auto_arguments (length f) t n (option_map (@length G) aout) in
    let* out := _default_out (m0 G) aout n false in
    let out0 := repeat (m0 G) (length out) in
    let* out0 := match t with
                 | None => _cross_sum_regular G f out0
                 | Some t => if (length f =? length t)%nat then Ok (_cross_sum G f t t out0)
                             else Raise ValueError
                 end in
    Ok (add_arrays out (halve_tail out0)).
End SumApi.

(** A time argument of the count functions: an array, or a scalar that stands for
    regular data of that length (core.py 711-720, 748-751). *)
Inductive targ := TScalar (n : nat) | TArray (t : list Z).
Definition targ_times (a : targ) : list Z :=
  match a with TScalar n => arange n | TArray t => t end.

(** _default_count, core.py 669-683 (the given array is assumed to be an integer
    array of dimension >= 1) *)
Definition _default_count (t1 t2 : list Z) (n : option nat) (out : option (list nat)) (complex : bool)
    : res (list nat) :=
  match out with
  | Some out => Ok out
  | None =>
      let* n := match n with
                | Some n => Ok n
                | None => _determine_full_length_cross 0 (Some (t1, t2))
                end in
      if complex then (if (n =? 0)%nat then Raise ValueError else Ok (repeat 0 (2 * n - 1)))%nat
      else Ok (repeat 0%nat n)
  end.

(** cross_count, core.py 685-724 *)
Definition cross_count (t1 : targ) (t2 : option targ) (n : option nat) (complex : bool)
    (aout : option (list nat)) : res (list nat) :=
  let t1 := targ_times t1 in
  let t2 := match t2 with None => t1 | Some a => targ_times a end in
  let* out := _default_count t1 t2 n aout complex in
  Ok (if complex then _add_count_cross_complex t1 t2 out else _add_count_cross t1 t2 out).

(** auto_count, core.py 726-754 *)
Definition auto_count (t : targ) (n : option nat) (aout : option (list nat)) : res (list nat) :=
  let t := targ_times t in
  let* out := _default_count t t n aout false in
  Ok (_add_count_auto t out).

(** The examples of the docstrings (core.py 706-709 and 743-746): a test of the
    model, not a proof of anything. *)
Example doc_cross_count_1 : cross_count (TScalar 10) None (Some 5%nat) false None = Ok [10; 18; 16; 14; 12]%nat.
Proof. reflexivity. Qed.
Example doc_cross_count_2 :
  cross_count (TArray [1; 3; 6]%Z) (Some (TArray [0; 2; 6]%Z)) (Some 5%nat) false None = Ok [1; 3; 0; 2; 1]%nat.
Proof. reflexivity. Qed.
Example doc_auto_count_1 : auto_count (TScalar 10) None None = Ok [10; 9; 8; 7; 6; 5; 4; 3; 2; 1]%nat.
Proof. reflexivity. Qed.
Example doc_auto_count_2 : auto_count (TArray [0; 2; 4; 5]%Z) None None = Ok [4; 1; 2; 1; 1; 1]%nat.
Proof. reflexivity. Qed.
