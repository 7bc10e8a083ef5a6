(** Log-spaced averages and merged results of complex correlation data, multitau.py 1506-1533
    and 1558-1611, for one pixel, with the argument [fold].  Arrays are lists of complex
    numbers; a real array is one with zero imaginary parts, and a flag tells np.iscomplexobj.
    None is NaN (in both parts). *)
From Verif Require Import Base Ordered AvgModel Kernels NormModel MultiModel LevelModel.
Set Implicit Arguments.

Section LogFold.
  Variable K : OFld.
  Variable junk : nat -> K.
  Notation C := (Cx K).
  (** fold_data in mode 0 of a row that may hold NaN, norm.py 845-858: the sum with NaN is NaN *)
  Definition fold_row (row : list (option C)) : list (option C) :=
    let n := (length row + 1) / 2 in
    match firstn n row with
    | [] => []
    | x :: l => x :: map (fun p => match fst p, snd p with
                                   | Some a, Some b => Some (cscal (fdiv K (f1 K) (fadd K (f1 K) (f1 K))) (cadd a (conj b)))
                                   | _, _ => None
                                   end) (combine l (rev_slice row n))
    end.
  (** The test at the head of multilevel and (twice) of log_merge, multitau.py 1437-1441 and
      1587-1596 *)
  Definition decide_fold (A : Type) (iscomplex : bool) (fold : option bool) (folded data : A) : res A :=
    if iscomplex then
      match fold with
      | None => Raise ValueError
      | Some true => Ok folded
      | Some false => Ok data
      end
    else Ok data.
  (** fold_data(data) *)
  Definition folded_data (data : list C) : list C :=
    match fold_data true data 0 with Ok l => l | Raise _ => [] end.
  (** multilevel, multitau.py 1407-1463 *)
  Definition multilevel_any (iscomplex : bool) (data : list C) (level_size binning : Z) (fold : option bool) (r : nat -> bool) : res (list (list (option C))) :=
    let* binning := _inspect_binning binning in
    if (level_size <? 2)%Z then Raise ValueError
    else
      let* data := decide_fold iscomplex fold (folded_data data) data in
      multilevel (c0 K) (complex_conv K junk) data level_size binning r.
  (** log_average, multitau.py 1506-1533 *)
  Definition log_average_any (iscomplex : bool) (data : list C) (size : Z) (fold : option bool) (r : nat -> bool) : res (list nat * list (option C)) :=
    if (size <? 1)%Z then Raise ValueError
    else
      let* ldata := multilevel_any iscomplex data (size * 2) BINNING_MEAN fold r in
      merge_full (Z.to_nat (size * 2)) ldata.
  (** log_merge, multitau.py 1567-1611; [nslow] is the length of the last axis of [multi]
      before it is folded *)
  Definition log_merge_any (lin_complex multi_complex : bool) (lin : list C) (nslow : nat) (multi : list (list (option C))) (binning : Z) (fold : option bool) (r : nat -> bool)
    : res (list nat * list (option C)) :=
    let* binning := _inspect_binning binning in
    let* lin := decide_fold lin_complex fold (folded_data lin) lin in
    let* multi_n := decide_fold multi_complex fold (map fold_row multi, (nslow + 1) / 2) (multi, nslow) in
    let '(multi, nslow) := multi_n in
    let nfast := length lin in
    if nslow =? 0 then Raise ZeroDivisionError
    else
      let period := nfast / nslow in
      if negb (nfast mod nslow =? 0) then Raise ValueError
      else
        let* ldata := multilevel_any lin_complex lin (Z.of_nat nslow) binning (Some false) r in
        let* fast := merge_full nslow ldata in
        let* slow := merge_half nslow multi in
        Ok (fst fast ++ map (fun x => 2 * period * x) (fst slow), snd fast ++ snd slow).
End LogFold.
