(** Model of the correlation functions of cddm/core.py for arrays of any number of axes and any [axis]
    argument: _move_axis_and_align, _transpose_data, _default_out, _is_aligned, the broadcasting of the
    kernels, and cross_correlate, cross_difference, auto_correlate, auto_difference, cross_sum, auto_sum, their
    FFT versions, ccorr and acorr (core.py 66-190, 192-252, 390-667, 759-957, 1022-1296).

    Simplifications: as in CoreModel.v and FftModel.v for numbers and times.  [contig] is data.data.contiguous,
    the memory layout, an arbitrary boolean.  numpy's AxisError, a subclass of both ValueError and IndexError,
    is IndexError here.  A kernel reads its output array and returns the new contents. *)
From Coq Require Import String.
From Verif Require Import Base Kernels CoreModel VecModel FftModel NormModel CorrModel NormArrayModel.
Open Scope string_scope.
Open Scope nat_scope.
Local Notation length := List.length.
Set Implicit Arguments.

(* ------------------------------------------------------------------ *)
(** * Axes *)
(** A possibly negative axis of an array with [r] axes *)
Definition norm_axis (r : nat) (axis : Z) : res nat :=
  if ((- Z.of_nat r <=? axis) && (axis <? Z.of_nat r))%Z%bool
  then Ok (Z.to_nat (if axis <? 0 then axis + Z.of_nat r else axis)%Z) else Raise IndexError.
(** x.shape[axis] *)
Definition shape_at (s : list nat) (axis : Z) : res nat := let* a := norm_axis (length s) axis in Ok (nth a s 0).
Definition del (A : Type) (a : nat) (l : list A) : list A := (firstn a l ++ skipn (S a) l)%list.
Definition ins (A : Type) (a : nat) (v : A) (l : list A) : list A := (firstn a l ++ v :: skipn a l)%list.
(** np.moveaxis(x, src, dst) *)
Definition moveaxis (A : Type) (x : nd A) (src dst : Z) : res (nd A) :=
  let* a := norm_axis (rank x) src in
  let* b := norm_axis (rank x) dst in
  Ok (Nd (ins b (nth a (shape x) 0) (del a (shape x))) (fun p => at_ x (ins a (nth b p 0) (del b p)))).
(** _move_axis_and_align, core.py 66-73; the copy of the data is not seen here *)
Definition _move_axis_and_align (A : Type) (f : nd A) (axis new_axis : Z) : res (nd A) :=
  if 1 <? rank f then moveaxis f axis new_axis else Ok f.
(** _transpose_data, core.py 171-172 *)
Definition _transpose_data (A : Type) (data : nd A) (axis : Z) : res (nd A) := moveaxis data axis (-1).
(** _is_aligned, core.py 247-252 *)
Definition _is_aligned (contig : bool) (r : nat) (axis : Z) (align : bool) : bool :=
  ((((axis =? -1) || (axis =? Z.of_nat r - 1))%Z && contig) || align)%bool.
(** _default_out, core.py 174-190, the check of the dtype left out *)
Definition _default_out_nd (B : Type) (zero : B) (out : option (nd B)) (data_shape : list nat) (n : nat) (calc_axis : Z) (complex : bool) : res (nd B) :=
  let* c := norm_axis (length data_shape) calc_axis in
  match out with
  | None => if complex
            then (if n =? 0 then Raise ValueError else Ok (Nd (firstn c data_shape ++ (2 * n - 1) :: skipn (S c) data_shape)%list (fun _ => zero)))
            else Ok (Nd (firstn c data_shape ++ n :: skipn (S c) data_shape)%list (fun _ => zero))
  | Some out =>
      let* m := shape_at (shape out) (-1) in
      let* out := _transpose_data out calc_axis in
      if list_eq_dec Nat.eq_dec (shape out) (firstn c data_shape ++ m :: skipn (S c) data_shape)%list then Ok out else Raise ValueError
  end.

(* ------------------------------------------------------------------ *)
(** * Kernels on arrays *)
(** The last two axes as a matrix *)
Definition mat (A : Type) (x : nd A) (p : list nat) : list (list A) :=
  map (fun i => map (fun j => at_ x (p ++ [i; j])%list) (seq 0 (last (shape x) 0))) (seq 0 (nth (rank x - 2) (shape x) 0)).
(** A gufunc of one-dimensional arrays is called for every index of the other axes *)
Definition gu1 (A B : Type) (d : B) (kernel : list A -> list A -> list B -> res (list B)) (f1 f2 : nd A) (out : nd B) : res (nd B) :=
  let call p := kernel (row f1 p) (row f2 p) (row out p) in
  let* _ := map_res call (indices (removelast (shape out))) in
  Ok (Nd (shape out) (fun q => match call (removelast q) with Ok r => nth (last q 0) r d | Raise _ => d end)).
(** A gufunc of matrices *)
Definition gu2 (A B : Type) (d : B) (kernel : list (list A) -> list (list A) -> list (list B) -> list (list B)) (f1 f2 : nd A) (out : nd B) : nd B :=
  Nd (shape out) (fun q => let p := removelast (removelast q) in nth (last q 0) (nth (last (removelast q) 0) (kernel (mat f1 p) (mat f2 p) (mat out p)) []) d).

(** The common body of all functions.  [inspect] are _inspect_cross_arguments or _inspect_auto_arguments
    given shape[axis] and aout.shape[-1]; [over_last] tells for which times the calculation is over the last
    axis of an array with several axes; [kernel1] and [kernel2] are the kernels for one row and for matrices;
    they are given the length of the axis of calculation, which numpy compares with that of the times;
    [always] tells that the axis is moved also in one-dimensional arrays. *)
Section Run.
  Variables (A B T : Type) (zero : B) (complex always : bool).
  Variable inspect : res nat -> option nat -> res (T * nat).
  Variable over_last : T -> bool.
  Variable kernel1 : T -> nat -> res (list A -> list A -> list B -> res (list B)).
  Variable kernel2 : T -> nat -> res (list (list A) -> list (list A) -> list (list B) -> list (list B)).
  Definition run_nd (f1 f2 : nd A) (axis : Z) (aout : option (nd B)) : res (nd B) :=
    if ((rank f1 =? 0) || if list_eq_dec Nat.eq_dec (shape f1) (shape f2) then false else true)%bool then Raise ValueError else
    let* alen := match aout with None => Ok None | Some o => let* l := shape_at (shape o) (-1) in Ok (Some l) end in
    let* (ts, n) := inspect (shape_at (shape f1) axis) alen in
    let on_last := ((rank f1 <=? 1) || over_last ts)%bool in
    let new_axis := if on_last then (-1)%Z else (-2)%Z in
    let* f1 := if always then moveaxis f1 axis new_axis else _move_axis_and_align f1 axis new_axis in
    let* f2 := if always then moveaxis f2 axis new_axis else _move_axis_and_align f2 axis new_axis in
    let* out := _default_out_nd zero aout (shape f1) n new_axis complex in
    let* len := shape_at (shape f1) new_axis in
    let* out := if on_last then (let* k := kernel1 ts len in gu1 zero k f1 f2 out)
                else (let* k := kernel2 ts len in Ok (gu2 zero k f1 f2 out)) in
    _transpose_data out new_axis.
End Run.

(** _determine_full_length_cross, core.py 128-138, and _inspect_cross_arguments, core.py 75-114, for
    arrays of equal shape *)
Definition inspect_cross (t1 t2 : option (list Z)) (n : option nat) (full : bool) (len : res nat) (aout_len : option nat)
    : res (option (list Z * list Z) * nat) :=
  let* ts := match t1, t2 with
             | None, Some _ | Some _, None => Raise ValueError
             | None, None => Ok None
             | Some t1, Some t2 => Ok (Some (t1, t2))
             end in
  let* n := match n with
            | Some n => Ok n
            | None => match aout_len with
                      | Some l => Ok (if full then (l + 1) / 2 else l)
                      | None => match ts with None => len | Some _ => _determine_full_length_cross 0 ts end
                      end
            end in
  let* ts := match ts with None => Ok None | Some (t1, t2) => let* s := _shift_cross t1 t2 in Ok (Some s) end in
  Ok (ts, n).
(** _determine_full_length_auto, core.py 117-126, and _inspect_auto_arguments, core.py 141-169 *)
Definition inspect_auto (t : option (list Z)) (n : option nat) (len : res nat) (aout_len : option nat) : res (option (list Z) * nat) :=
  let* n := match n with
            | Some n => Ok n
            | None => match aout_len with
                      | Some l => Ok l
                      | None => match t with None => len | Some _ => _determine_full_length_auto 0 t end
                      end
            end in
  let* t := match t with None => Ok None | Some t => let* m := zmin_list t in Ok (Some (map (fun x => x - m)%Z t)) end in
  Ok (t, n).

(** ** Correlations and differences *)
(** The choice of the kernel in cross_correlate, core.py 445-464, and cross_difference, 514-533 *)
Definition cross_k1 (A B : Type) (kreg : list A -> list A -> list B -> res (list B)) (kirr : list A -> list A -> list Z -> list Z -> list B -> list B)
    (aligned : bool) (ts : option (list Z * list Z)) (len : nat) : res (list A -> list A -> list B -> res (list B)) :=
  match ts with
  | None => if aligned then Ok kreg else Ok (fun x y o => Ok (kirr x y (arange len) (arange len) o))
  | Some (t1, t2) => if ((len =? length t1) && (len =? length t2))%bool then Ok (fun x y o => Ok (kirr x y t1 t2 o)) else Raise ValueError
  end.
Definition cross_k2 (A B : Type) (kvec : list (list A) -> list (list A) -> list Z -> list Z -> list (list B) -> list (list B))
    (ts : option (list Z * list Z)) (len : nat) : res (list (list A) -> list (list A) -> list (list B) -> list (list B)) :=
  match ts with
  | None => Ok (fun x y o => kvec x y (arange len) (arange len) o)
  | Some (t1, t2) => if ((len =? length t1) && (len =? length t2))%bool then Ok (fun x y o => kvec x y t1 t2 o) else Raise ValueError
  end.
Definition no_times (T : Type) (aligned : bool) (ts : option T) : bool := match ts with None => aligned | Some _ => false end.
(** core.py 436-466 and 508-535 *)
Definition run_cross_nd (A B : Type) (zero : B) (complex : bool) kreg kirr kvec (contig : bool) (f1 f2 : nd A) (t1 t2 : option (list Z)) (axis : Z) (n : option nat) (align : bool) (aout : option (nd B)) : res (nd B) :=
  let aligned := _is_aligned contig (rank f1) axis align in
  run_nd zero complex false (inspect_cross t1 t2 n complex) (no_times aligned) (cross_k1 kreg kirr aligned) (cross_k2 kvec) f1 f2 axis aout.
(** The choice of the kernel in auto_correlate, core.py 583-605, and auto_difference, 649-665 *)
Definition auto_k1 (A B : Type) (kreg : list A -> list B -> res (list B)) (kirr : list A -> list Z -> list B -> list B)
    (aligned : bool) (t : option (list Z)) (len : nat) : res (list A -> list A -> list B -> res (list B)) :=
  match t with
  | None => if aligned then Ok (fun x _ o => kreg x o) else Ok (fun x _ o => Ok (kirr x (arange len) o))
  | Some t => if len =? length t then Ok (fun x _ o => Ok (kirr x t o)) else Raise ValueError
  end.
Definition auto_k2 (A B : Type) (kvec : list (list A) -> list Z -> list (list B) -> list (list B)) (t : option (list Z)) (len : nat)
    : res (list (list A) -> list (list A) -> list (list B) -> list (list B)) :=
  match t with
  | None => Ok (fun x _ o => kvec x (arange len) o)
  | Some t => if len =? length t then Ok (fun x _ o => kvec x t o) else Raise ValueError
  end.
(** core.py 578-607 and 644-667 *)
Definition run_auto_nd (A B : Type) (zero : B) kreg kirr kvec (contig : bool) (f : nd A) (t : option (list Z)) (axis : Z) (n : option nat) (align : bool) (aout : option (nd B)) : res (nd B) :=
  let aligned := _is_aligned contig (rank f) axis align in
  run_nd zero false false (inspect_auto t n) (no_times aligned) (auto_k1 kreg kirr aligned) (auto_k2 kvec) f f axis aout.

(** FFT methods, core.py 192-218 and 220-245: always over the last axis *)
Definition fft_cross_k1 (A B : Type) (regular : list A -> list A -> list B -> res (list B)) (irregular : list A -> list A -> list Z -> list Z -> nat -> list B -> res (list B))
    (ts : option (list Z * list Z)) (len : nat) : res (list A -> list A -> list B -> res (list B)) :=
  match ts with
  | None => Ok regular
  | Some (t1, t2) =>
      let* size := _determine_full_length_cross len ts in
      if ((len =? length t1) && (len =? length t2))%bool then Ok (fun x y o => irregular x y t1 t2 size o) else Raise ValueError
  end.
Definition fft_auto_k1 (A B : Type) (regular : list A -> list B -> res (list B)) (irregular : list A -> list Z -> nat -> list B -> res (list B))
    (t : option (list Z)) (len : nat) : res (list A -> list A -> list B -> res (list B)) :=
  match t with
  | None => Ok (fun x _ o => regular x o)
  | Some t' =>
      let* size := _determine_full_length_auto len t in
      if len =? length t' then Ok (fun x _ o => irregular x t' size o) else Raise ValueError
  end.
Definition no_k2 (A B T : Type) (ts : T) (len : nat) : res (list (list A) -> list (list A) -> list (list B) -> list (list B)) := Raise ValueError.
Definition run_cross_fft_nd (A B : Type) (zero : B) (complex : bool) regular irregular (f1 f2 : nd A) (t1 t2 : option (list Z)) (axis : Z) (n : option nat) (aout : option (nd B)) : res (nd B) :=
  run_nd zero complex true (inspect_cross t1 t2 n complex) (fun _ => true) (fft_cross_k1 regular irregular) (@no_k2 A B _) f1 f2 axis aout.
Definition run_auto_fft_nd (A B : Type) (zero : B) regular irregular (f : nd A) (t : option (list Z)) (axis : Z) (n : option nat) (aout : option (nd B)) : res (nd B) :=
  run_nd zero false true (inspect_auto t n) (fun _ => true) (fft_auto_k1 regular irregular) (@no_k2 A B _) f f axis aout.

(** ** Sums *)
Section Sums.
  Variable G : QGrp.
  (** -t, -t_other for time_inversion, core.py 816-817 and 846-847 *)
  Definition inverted (time_inversion : bool) (ts : list Z * list Z) : list Z * list Z :=
    if time_inversion then (map Z.opp (fst ts), map Z.opp (snd ts)) else ts.
  (** cross_sum, core.py 793-826 *)
  Definition sum_k1 (complex time_inversion : bool) (ts : option (list Z * list Z)) (len : nat) : res (list G -> list G -> list G -> res (list G)) :=
    match ts with
    | None => Ok (fun x _ o => if complex then (if time_inversion then _cross_sum_complex_regular_inverted G x o else _cross_sum_complex_regular G x o)
                               else _cross_sum_regular G x o)
    | Some ts =>
        let (t, t_other) := inverted time_inversion ts in
        if len =? length t then Ok (fun x _ o => Ok (if complex then _cross_sum_complex G x t t_other o else _cross_sum G x t t_other o)) else Raise ValueError
    end.
  Definition sum_k2 (complex time_inversion : bool) (ts : option (list Z * list Z)) (len : nat) : res (list (list G) -> list (list G) -> list (list G) -> list (list G)) :=
    match ts with
    | None => Raise ValueError
    | Some ts =>
        let (t, t_other) := inverted time_inversion ts in
        if len =? length t then Ok (fun x _ o => if complex then _cross_sum_complex_vec G x t t_other o else _cross_sum_vec G x t t_other o) else Raise ValueError
    end.
  Definition cross_sum_nd (f : nd G) (t t_other : option (list Z)) (axis : Z) (n : option nat) (complex time_inversion : bool) (aout : option (nd G)) : res (nd G) :=
    run_nd (m0 G) complex false (inspect_cross t t_other n complex) (no_times true) (sum_k1 complex time_inversion) (sum_k2 complex time_inversion) f f axis aout.
  (** out0[..., 1:] /= 2; out += out0, core.py 918-923, done on the rows of delays before they are moved to the last axis *)
  Definition add_rows (a b : list (list G)) : list (list G) := map (fun p => add_arrays G (fst p) (snd p)) (combine a b).
  Definition halve_rows (out : list (list G)) : list (list G) := match out with [] => [] | x :: l => x :: map (map (ahalf G)) l end.
  Definition zero_rows (out : list (list G)) : list (list G) := map (map (fun _ => m0 G)) out.
  (** auto_sum, core.py 893-924 *)
  Definition asum_k1 (t : option (list Z)) (len : nat) : res (list G -> list G -> list G -> res (list G)) :=
    match t with
    | None => Ok (fun x _ o => let* o0 := _cross_sum_regular G x (repeat (m0 G) (length o)) in Ok (add_arrays G o (halve_tail G o0)))
    | Some t => if len =? length t then Ok (fun x _ o => Ok (add_arrays G o (halve_tail G (_cross_sum G x t t (repeat (m0 G) (length o)))))) else Raise ValueError
    end.
  Definition asum_k2 (t : option (list Z)) (len : nat) : res (list (list G) -> list (list G) -> list (list G) -> list (list G)) :=
    match t with
    | None => Raise ValueError
    | Some t => if len =? length t then Ok (fun x _ o => add_rows o (halve_rows (_cross_sum_vec G x t t (zero_rows o)))) else Raise ValueError
    end.
  Definition auto_sum_nd (f : nd G) (t : option (list Z)) (axis : Z) (n : option nat) (aout : option (nd G)) : res (nd G) :=
    run_nd (m0 G) false false (inspect_auto t n) (no_times true) asum_k1 asum_k2 f f axis aout.

  Variable K : Fld.
  Variable W : nat -> Cx K.
  Variable toC : G -> Cx K.
  Variable back : Cx K -> G.
  (** cross_sum_fft, core.py 828-859 *)
  Definition fft_sum_k1 (complex time_inversion : bool) (ts : option (list Z * list Z)) (len : nat) : res (list G -> list G -> list G -> res (list G)) :=
    match ts with
    | None => Raise ValueError
    | Some ts2 =>
        let* size := _determine_full_length_cross len ts in
        let (t, t_other) := inverted time_inversion ts2 in
        let* y := _fill_ones t_other (repeat (c0 K) (size * 2)) in
        let* y := _fft W y in
        if len =? length t then Ok (fun x _ o => if complex then _cross_sum_complex_fft W G toC back x y t size o else _cross_sum_fft W G toC back x y t size o)
        else Raise ValueError
    end.
  Definition cross_sum_fft_nd (f : nd G) (t t_other : option (list Z)) (axis : Z) (n : option nat) (complex time_inversion : bool) (aout : option (nd G)) : res (nd G) :=
    run_nd (m0 G) complex true (inspect_cross t t_other n complex) (fun _ => true) (fft_sum_k1 complex time_inversion) (@no_k2 G G _) f f axis aout.
  (** auto_sum_fft, core.py 926-957 *)
  Definition fft_asum_k1 (t : option (list Z)) (len : nat) : res (list G -> list G -> list G -> res (list G)) :=
    match t with
    | None => Raise ValueError
    | Some t' =>
        let* size := _determine_full_length_auto len t in
        let* y := _fill_ones t' (repeat (c0 K) (size * 2)) in
        let* y := _fft W y in
        if len =? length t' then Ok (fun x _ o => let* o0 := _cross_sum_fft W G toC back x y t' size (repeat (m0 G) (length o)) in Ok (add_arrays G o (halve_tail G o0)))
        else Raise ValueError
    end.
  Definition auto_sum_fft_nd (f : nd G) (t : option (list Z)) (axis : Z) (n : option nat) (aout : option (nd G)) : res (nd G) :=
    run_nd (m0 G) false true (inspect_auto t n) (fun _ => true) fft_asum_k1 (@no_k2 G G _) f f axis aout.
End Sums.

Section Api.
  Variable K : Fld.
  Notation C := (Cx K).
  Variable W : nat -> C.

  (** cross_correlate, core.py 390-466 *)
  Definition cross_correlate_nd := run_cross_nd (f0 K) false (@_cross_corr_regular K) (@_cross_corr K) (@_cross_corr_vec K).
  Definition cross_correlate_complex_nd := run_cross_nd (c0 K) true (@_cross_corr_complex_regular K) (@_cross_corr_complex K) (@_cross_corr_complex_vec K).
  (** cross_difference, core.py 468-535 *)
  Definition cross_difference_nd := run_cross_nd (f0 K) false (@_cross_diff_regular K) (@_cross_diff K) (@_cross_diff_vec K).
  (** auto_correlate, core.py 537-607 *)
  Definition auto_correlate_nd := run_auto_nd (f0 K) (@_auto_corr_regular K) (@_auto_corr K) (@_auto_corr_vec K).
  Definition auto_correlate_complex_nd := run_auto_nd (c0 K) (@_auto_corr_complex_regular K) (@_auto_corr_complex K) (@_auto_corr_complex_vec K).
  (** auto_difference, core.py 609-667 *)
  Definition auto_difference_nd := run_auto_nd (f0 K) (@_auto_diff_regular K) (@_auto_diff K) (@_auto_diff_vec K).
  (** cross_correlate_fft, core.py 192-218, auto_correlate_fft, core.py 220-245 *)
  Definition cross_correlate_fft_nd := run_cross_fft_nd (f0 K) false (_cross_corr_fft_regular W) (_cross_corr_fft W).
  Definition cross_correlate_fft_complex_nd := run_cross_fft_nd (c0 K) true (_cross_corr_fft_regular_complex W) (_cross_corr_fft_complex W).
  Definition auto_correlate_fft_nd := run_auto_fft_nd (f0 K) (_auto_corr_fft_regular W) (_auto_corr_fft W).
  Definition auto_correlate_fft_complex_nd := run_auto_fft_nd (c0 K) (_auto_corr_fft_regular_complex W) (_auto_corr_fft_complex W).

  (** A ufunc of one array *)
  Definition map_nd (A B : Type) (g : A -> B) (x : nd A) : nd B := Nd (shape x) (fun p => g (at_ x p)).
  (** One-dimensional count arrays *)
  Definition count_list (x : nd nat) : list nat := row x [].
  Definition count_nd (l : list nat) : nd nat := Nd [length l] (fun p => nth (hd 0 p) l 0).

  (** The tuple assignment of aout, core.py 1075-1078 and 1220-1225 *)
  Definition unpack_aout_nd (V : Type) (diff : bool) (aout : option (ndata K V)) : res (option (nd V) * option (nd nat) * option (nd K) * option (nd C) * option (nd C)) :=
    match aout, diff with
    | None, _ => Ok (None, None, None, None, None)
    | Some (NCorr d c sq s1 s2), false => Ok (Some d, Some c, sq, s1, s2)
    | Some (NDiff d c s1 s2), true => Ok (Some d, Some c, None, s1, s2)
    | _, _ => Raise ValueError
    end.
  (** f1s and f2s, core.py 1265-1273, and fs, core.py 1114-1117 *)
  Definition squares (given : option (nd K)) (f : nd C) (axis new_axis : Z) : res (nd K) :=
    match given with None => Ok (map_nd (@cnorm2 K) f) | Some s => _move_axis_and_align s axis new_axis end.

  Section Cross.
    Variable V : Type.
    Variable complex : bool.
    Variable fft corr diff : nd C -> nd C -> option (list Z) -> option (list Z) -> Z -> option nat -> option (nd V) -> res (nd V).
    (** ccorr, core.py 1137-1296 *)
    Definition ccorr_nd_gen (contig : bool) (f1 f2 : nd C) (t1 t2 : option (list Z)) (axis : Z) (n : option nat) (norm : option Z) (align : bool)
        (method : option string) (f1s f2s : option (nd K)) (aout : option (ndata K V)) : res (ndata K V) :=
      let* method := _default_method method n in
      let* norm := _default_norm norm method true in
      let is_diff := String.eqb method "diff" in
      if (is_diff && complex)%bool then Raise ValueError else
      let* (cor, count, sq, ds1, ds2) := unpack_aout_nd is_diff aout in
      if ((rank f1 =? 0) || if list_eq_dec Nat.eq_dec (shape f1) (shape f2) then false else true)%bool then Raise ValueError else
      let* alen := match cor with None => Ok None | Some o => let* l := shape_at (shape o) (-1) in Ok (Some l) end in
      let* (ts, n) := inspect_cross t1 t2 n complex (shape_at (shape f1) axis) alen in
      let t1 := option_map fst ts in
      let t2 := option_map snd ts in
      let* _ := shape_at (shape f1) axis in
      let new_axis := if ((rank f1 <=? 1) || no_times (_is_aligned contig (rank f1) axis align) ts)%bool then (-1)%Z else (-2)%Z in
      let* f1 := _move_axis_and_align f1 axis new_axis in
      let* f2 := _move_axis_and_align f2 axis new_axis in
      let* cor := (if String.eqb method "fft" then fft else if String.eqb method "corr" then corr else diff) f1 f2 t1 t2 new_axis (Some n) cor in
      let* count := match ts with
                    | None => let* l := shape_at (shape f1) new_axis in let t := TArray (arange l) in cross_count t (Some t) (Some n) complex (option_map count_list count)
                    | Some (t1, t2) => cross_count (TArray t1) (Some (TArray t2)) (Some n) complex (option_map count_list count)
                    end in
      let use_fft := (String.eqb method "fft" && given ts)%bool in
      let sum_sq := if use_fft then cross_sum_fft_nd (fgrp K) W (@cofre K) (@cre K) else cross_sum_nd (fgrp K) in
      let sum_f := if use_fft then cross_sum_fft_nd (cgrp K) W (fun z => z) (@conj K) else cross_sum_nd (cgrp K) in
      let* sq := if (has_flag norm NORM_STRUCTURED && negb is_diff)%bool then
                   let* f1s := squares f1s f1 axis new_axis in
                   let* f2s := squares f2s f2 axis new_axis in
                   let* sq := sum_sq f1s t1 t2 new_axis (Some n) complex false sq in
                   let* sq := sum_sq f2s t2 t1 new_axis (Some n) complex true (Some sq) in
                   Ok (Some sq)
                 else Ok sq in
      let* (ds1, ds2) := if has_flag norm NORM_SUBTRACTED then
                           let* ds1 := sum_f f1 t1 t2 new_axis (Some n) complex false ds1 in
                           let* ds2 := sum_f f2 t2 t1 new_axis (Some n) complex true ds2 in
                           Ok (Some ds1, Some ds2)
                         else Ok (ds1, ds2) in
      Ok (if is_diff then NDiff cor (count_nd count) ds1 ds2 else NCorr cor (count_nd count) sq ds1 ds2).
  End Cross.
  (** ccorr(..., complex=False); [contig'] is the layout of the moved arrays *)
  Definition ccorr_nd (contig' : bool) := ccorr_nd_gen false
    cross_correlate_fft_nd
    (fun f1 f2 t1 t2 axis n aout => cross_correlate_nd contig' f1 f2 t1 t2 axis n false aout)
    (fun f1 f2 t1 t2 axis n aout => cross_difference_nd contig' f1 f2 t1 t2 axis n false aout).
  (** ccorr(..., complex=True) *)
  Definition ccorr_complex_nd (contig' : bool) := ccorr_nd_gen true
    cross_correlate_fft_complex_nd
    (fun f1 f2 t1 t2 axis n aout => cross_correlate_complex_nd contig' f1 f2 t1 t2 axis n false aout)
    (fun _ _ _ _ _ _ _ => Raise ValueError).

  Section Auto.
    Variable V : Type.
    Variable fft corr diff : nd C -> option (list Z) -> Z -> option nat -> option (nd V) -> res (nd V).
    (** acorr, core.py 1022-1135 *)
    Definition acorr_nd_gen (contig : bool) (f : nd C) (t : option (list Z)) (fs : option (nd K)) (axis : Z) (n : option nat) (norm : option Z) (align : bool)
        (method : option string) (aout : option (ndata K V)) : res (ndata K V) :=
      let* method := _default_method method n in
      let* norm := _default_norm norm method false in
      let is_diff := String.eqb method "diff" in
      let* (cor, count, sq, ds, _) := unpack_aout_nd is_diff aout in
      if rank f =? 0 then Raise ValueError else
      let* alen := match cor with None => Ok None | Some o => let* l := shape_at (shape o) (-1) in Ok (Some l) end in
      let* (t, n) := inspect_auto t n (shape_at (shape f) axis) alen in
      let* _ := shape_at (shape f) axis in
      let new_axis := if ((rank f <=? 1) || no_times (_is_aligned contig (rank f) axis align) t)%bool then (-1)%Z else (-2)%Z in
      let* f := _move_axis_and_align f axis new_axis in
      let* cor := (if String.eqb method "fft" then fft else if String.eqb method "corr" then corr else diff) f t new_axis (Some n) cor in
      let* count := match t with
                    | None => let* l := shape_at (shape f) new_axis in auto_count (TArray (arange l)) (Some n) (option_map count_list count)
                    | Some t => auto_count (TArray t) (Some n) (option_map count_list count)
                    end in
      let use_fft := (String.eqb method "fft" && given t)%bool in
      let sum_sq := if use_fft then auto_sum_fft_nd (fgrp K) W (@cofre K) (@cre K) else auto_sum_nd (fgrp K) in
      let sum_f := if use_fft then auto_sum_fft_nd (cgrp K) W (fun z => z) (@conj K) else auto_sum_nd (cgrp K) in
      let* sq := if (has_flag norm NORM_STRUCTURED && negb is_diff)%bool then
                   let* fs := squares fs f axis new_axis in
                   let* sq := sum_sq (map_nd (fmul K (fadd K (f1 K) (f1 K))) fs) t new_axis (Some n) sq in
                   Ok (Some sq)
                 else Ok sq in
      let* ds := if (has_flag norm NORM_SUBTRACTED && negb is_diff)%bool then
                   let* ds := sum_f f t new_axis (Some n) ds in Ok (Some ds)
                 else Ok ds in
      Ok (if is_diff then NDiff cor (count_nd count) None None else NCorr cor (count_nd count) sq ds None).
  End Auto.
  (** acorr(..., complex=False) *)
  Definition acorr_nd (contig' : bool) := acorr_nd_gen
    auto_correlate_fft_nd
    (fun f t axis n aout => auto_correlate_nd contig' f t axis n false aout)
    (fun f t axis n aout => auto_difference_nd contig' f t axis n false aout).
End Api.
